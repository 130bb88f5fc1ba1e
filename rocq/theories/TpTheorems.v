(** Proofs of the statements in PropertiesTp.v. *)
From Coq Require Import List NArith ZArith Bool Lia ZifyBool ZifyNat ZifyN.
From Verif Require Import BytesModel UniverseModel WireSpec BytesProofs UniverseProofs StringProofs
  PrimitivesModel PrimitivesSpec PrimitivesProofs PrimitivesTheorems MessageModel MessageSpec MessageProofs MessageTheorems
  TpModel TpSpec TpProofs.
Import ListNotations.
Open Scope N_scope.
Ltac Zify.zify_post_hook ::= Z.div_mod_to_equations.
Arguments N.add : simpl never. Arguments N.mul : simpl never. Arguments N.pow : simpl never.
Arguments N.of_nat : simpl never. Arguments N.sub : simpl never.
Arguments N.div : simpl never. Arguments N.modulo : simpl never.

Lemma split_terminates limits body : (forall i, 16 <= limits i) ->
  exists segs, split_loop (S (length body)) limits (tp_new body) = Some segs /\ split_run (tp_new body) segs.
Proof. intros H. apply split_loop_run; [exact H|cbn; lia]. Qed.

Lemma reassembly body first rest : split_run (tp_new body) (first :: rest) ->
  join_all first rest = Some (mkTp 0 false body).
Proof. intros H. apply reassemble. apply (run_cut _ _ H). Qed.

Lemma segments_on_wire ubits body segs s data room : 32 <= ubits ->
  split_run (tp_new body) segs -> len body <= 2 ^ 32 -> In s segs -> 4 + len (tp_body s) <= room ->
  serialize (ser_tp ubits) s (mkW data room)
  = WOk (4 + len (tp_body s)) (mkW (data ++ tp_form s) (room - (4 + len (tp_body s)))) /\
  de_tp (tp_form s) = DOk s [].
Proof.
  intros Hu Hr Hl Hin Hroom. assert (Ho := run_offsets _ _ s Hr eq_refl Hl Hin).
  split; [|apply tp_reads; exact Ho].
  destruct (tp_emits ubits s Hu Ho) as [_ W]. specialize (W (mkW data room)). rewrite W.
  assert (L : len (tp_form s) = 4 + len (tp_body s)) by (unfold tp_form; rewrite len_app, be_len; reflexivity).
  rewrite L. cbn [w_room]. destruct (N.leb_spec (4 + len (tp_body s)) room); [|lia].
  unfold appended. rewrite L. reflexivity.
Qed.

(** Sending a message in segments and putting it together again. *)
Lemma end_to_end ubits m first rest : 32 <= ubits -> message_ok m -> canonical_header (m_header m) ->
  bytes_ok (m_body m) -> 12 + len (m_body m) < 2 ^ 32 ->
  split_run (m_body (wrap_segment m)) (first :: rest) ->
  (forall s, In s (first :: rest) ->
     let sent := msg_with_body m s in
     let form := message_form (m_service m) (m_method m) (m_header m) (tp_form s) in
     (forall data room, len form <= room ->
        serialize (ser_msg (ser_tp ubits)) sent (mkW data room) = WOk (len form) (mkW (data ++ form) (room - len form))) /\
     (forall after, exists received, de_msg de_bytes (form ++ after) = DOk received after /\
        into_segment received = inr sent)) /\
  exists whole, join_all first rest = Some whole /\ unwrap_segment (msg_with_body m whole) = m.
Proof.
  intros Hu (Hs & Hm & Hh) Hc Hb Hl Hr. change (m_body (wrap_segment m)) with (tp_new (m_body m)) in Hr. split.
  - intros s Hin. cbv zeta.
    assert (Ho : tp_offset s < 2 ^ 28) by (apply (run_offsets _ _ s Hr eq_refl); [cbn [tp_new tp_body]; lia|exact Hin]).
    assert (Hlen : len (tp_body s) <= len (m_body m)) by (apply (proj2 (cut_offset_bound _ _ _ _ (run_cut _ _ Hr) Hin))).
    assert (Hlf : len (tp_form s) = 4 + len (tp_body s)) by (unfold tp_form; rewrite len_app, be_len; reflexivity).
    assert (Eh := emits_header _ Hh). assert (Eb := tp_emits ubits s Hu Ho).
    set (form := message_form (m_service m) (m_method m) (m_header m) (tp_form s)).
    split.
    + intros data room Hroom.
      assert (W := message_writes ser_header (ser_tp ubits) (msg_with_body m s) _ _ Eh Eb).
      cbn [msg_with_body msg_with_method msg_with_service msg_new m_service m_method m_header m_body] in W.
      rewrite form_unfold in W. fold form in W. rewrite header_form_len in W.
      specialize (W ltac:(lia) (mkW data room)). cbn [w_room] in W. unfold ser_msg. rewrite W.
      destruct (N.leb_spec (len form) room); [reflexivity|lia].
    + intros after. exists (msg_with_body m (tp_form s)).
      assert (Hfb : bytes_ok (tp_form s)).
      { unfold tp_form. apply bytes_ok_app. split; [apply be_is_byte|].
        assert (Hc' := run_cut _ _ Hr). cbn [tp_new tp_offset tp_body] in Hc'.
        clear - Hc' Hin Hb. revert Hc' Hb Hin. generalize (m_body m) as body, 0 as off. generalize (first :: rest) as segs. clear.
        induction segs as [|s0 segs IH]; intros body off Hc Hb Hin; [contradiction|].
        destruct segs as [|s2 segs].
        - cbn [cut] in Hc. subst s0. destruct Hin as [<-|[]]. exact Hb.
        - apply cut_cons in Hc; [|discriminate]. destruct Hc as (_ & _ & u & _ & _ & b & -> & Hc).
          apply bytes_ok_app in Hb as [Hb1 Hb2]. destruct Hin as [<-|Hin]; [exact Hb1|]. apply (IH _ _ Hc Hb2 Hin). }
      split.
      * apply (sendable_reads (msg_with_body m (tp_form s))).
        split; [split; [exact Hs|split; [exact Hm|exact Hh]]|]. split; [exact Hc|]. split; [exact Hfb|].
        cbn [msg_with_body msg_with_method msg_with_service msg_new m_body]. lia.
      * unfold into_segment. cbn [msg_with_body msg_with_method msg_with_service msg_new m_body].
        rewrite tp_reads by exact Ho. reflexivity.
  - exists (mkTp 0 false (m_body m)). split; [apply reassembly; exact Hr|]. destruct m; reflexivity.
Qed.

Lemma split_shape h limit : 16 <= limit ->
  let units := limit / 16 in
  (len (tp_body h) <= 16 * units ->
     tp_split h limit = (None, mkTp (tp_offset h) false (tp_body h))) /\
  (16 * units < len (tp_body h) ->
     exists front back, tp_body h = front ++ back /\ len front = 16 * units /\ 0 < len front <= limit /\ back <> [] /\
       tp_split h limit = (Some (mkTp (tp_offset h) true front), mkTp (tp_offset h + units) (tp_more h) back)).
Proof.
  intros Hl units. destruct (split_spec h limit Hl) as (u & Eu & Hu & Hle & [[Hb E]|(Hb & f & b & Eb & Hf & Hbn & E)]); fold units in Eu; subst u.
  - split; [intros _; exact E|lia].
  - split; [lia|]. intros _. exists f, b. repeat split; try assumption; lia.
Qed.
Lemma split_small h limit : limit < 16 -> tp_split h limit = (None, h).
Proof. intros H. unfold tp_split, offset_unit. destruct (N.ltb_spec limit 16); [reflexivity|lia]. Qed.

Lemma pieces_of_cut : forall segs off body, cut off body segs ->
  concat (map tp_body segs) = body /\
  forall i s, nth_error segs i = Some s ->
    16 * tp_offset s = 16 * off + len (concat (map tp_body (firstn i segs))) /\
    tp_more s = Nat.ltb (S i) (length segs).
Proof.
  induction segs as [|s0 segs IH]; intros off body Hc; [contradiction|].
  destruct segs as [|s2 segs].
  - cbn [cut] in Hc. subst s0. cbn. rewrite app_nil_r. split; [reflexivity|].
    intros [|[|i]] s Hs; cbn in Hs; [|discriminate|discriminate]. injection Hs as <-. cbn [tp_offset tp_more firstn map concat].
    change (len (@nil N)) with 0. split; [lia|reflexivity].
  - apply cut_cons in Hc; [|discriminate]. destruct Hc as (Ho & Hm & u & Hu & Hl & b & -> & Hc).
    destruct (IH _ _ Hc) as [Hcat Hnth]. split; [cbn [map concat]; f_equal; exact Hcat|].
    intros [|i] s Hs.
    + cbn in Hs. injection Hs as <-. cbn [firstn map concat length]. split; [change (len (@nil N)) with 0; lia|exact Hm].
    + cbn [nth_error] in Hs. destruct (Hnth i s Hs) as [H1 H2]. split.
      * cbn [firstn map concat]. rewrite len_app. lia.
      * rewrite H2. reflexivity.
Qed.

Lemma nonlast_of_cut : forall segs off body, cut off body segs -> forall i s,
  nth_error segs i = Some s -> (S i < length segs)%nat -> 0 < len (tp_body s) /\ len (tp_body s) mod 16 = 0.
Proof.
  induction segs as [|s0 segs IH]; intros off body Hc i s Hs Hi; [contradiction|].
  destruct segs as [|s2 segs]; [cbn in Hi; lia|].
  apply cut_cons in Hc; [|discriminate]. destruct Hc as (_ & _ & u & Hu & Hl & b & _ & Hc).
  destruct i as [|i].
  - cbn in Hs. injection Hs as <-. split; [lia|rewrite Hl; lia].
  - apply (IH _ _ Hc i s Hs). cbn in *. lia.
Qed.

Lemma segment_pieces body segs : split_run (tp_new body) segs ->
  concat (map tp_body segs) = body /\
  (forall i s, nth_error segs i = Some s ->
    16 * tp_offset s = len (concat (map tp_body (firstn i segs))) /\
    tp_more s = Nat.ltb (S i) (length segs)) /\
  (forall i s, nth_error segs i = Some s -> (S i < length segs)%nat ->
    0 < len (tp_body s) /\ len (tp_body s) mod 16 = 0).
Proof.
  intros Hr. assert (Hc := run_cut _ _ Hr). cbn [tp_new tp_offset tp_body] in Hc.
  destruct (pieces_of_cut _ _ _ Hc) as [H1 H2]. split; [exact H1|]. split.
  - intros i s Hs. destruct (H2 i s Hs). split; [lia|assumption].
  - intros i s Hs Hi. apply (nonlast_of_cut _ _ _ Hc i s Hs Hi).
Qed.

(** Splitting a segment that has more segments behind it loses that information. *)
Lemma resplit_drops_flag h segs : split_run h segs -> tp_more (last segs h) = false.
Proof.
  induction 1 as [h limit h' Hl E|h limit s h' segs Hl E Hr IH].
  - destruct (split_spec h limit Hl) as (u & _ & _ & _ & [[_ E']|(_ & f & b & _ & _ & _ & E')]); rewrite E' in E; [|discriminate].
    injection E as <-. reflexivity.
  - assert (Hne := cut_nonempty _ _ _ (run_cut _ _ Hr)).
    destruct segs as [|x l]; [congruence|]. 
    assert (X : last (s :: x :: l) h = last (x :: l) h') by (clear; revert s x; induction l as [|y l IH]; intros; [reflexivity|]; cbn [last] in *; apply (IH x y)).
    rewrite X. exact IH.
Qed.

Lemma join_cases h other :
  (tp_more h = false -> tp_join h other = (Some (UnexpectedSegment other), h)) /\
  (tp_more h = true -> tp_offset other <> len (tp_body h) / 16 ->
     tp_join h other = (Some (WrongOffset (len (tp_body h) / 16) other), h)) /\
  (tp_more h = true -> tp_offset other = len (tp_body h) / 16 ->
     tp_join h other = (None, mkTp (tp_offset h) (tp_more other) (tp_body h ++ tp_body other))).
Proof.
  unfold tp_join, offset_unit. split; [|split].
  - intros ->. reflexivity.
  - intros -> Hne. cbn [negb]. cbv zeta. destruct (N.eqb_spec (len (tp_body h) / 16) (tp_offset other)); [congruence|reflexivity].
  - intros -> ->. cbn [negb]. cbv zeta. rewrite N.eqb_refl. reflexivity.
Qed.

Lemma unreliable body first rest arrivals : split_run (tp_new body) (first :: rest) ->
  (forall s, In s arrivals -> In s (first :: rest)) ->
  let r := receive first arrivals in
  tp_offset r = 0 /\
  (exists missing, body = tp_body r ++ missing) /\
  (tp_more r = false -> tp_body r = body) /\
  (subseq rest arrivals -> tp_more r = false).
Proof.
  intros Hr Hin r. assert (Hc := run_cut _ _ Hr). cbn [tp_new tp_offset tp_body] in Hc.
  split; [subst r; rewrite receive_offset; apply (cut_head _ _ _ _ Hc)|].
  destruct (first_todo body first rest Hc) as [[-> ->]|Ht].
  - subst r. rewrite receive_finished by reflexivity. cbn [tp_body tp_more]. split; [exists []; rewrite app_nil_r; reflexivity|].
    split; reflexivity.
  - destruct (receive_invariant body (first :: rest) arrivals first rest Ht Hin) as [H1 H2].
    split; [exact H1|]. split; [exact H2|].
    intros Hs. apply (receive_complete body (first :: rest) arrivals first rest Ht Hin Hs).
Qed.

(** A receiver that starts from a later segment can assemble bytes that are no part of the message. *)
Lemma wrong_start : exists body segs first arrivals,
  split_run (tp_new body) segs /\ In first segs /\ (forall s, In s arrivals -> In s segs) /\
  tp_more (receive first arrivals) = false /\
  ~ exists a b, body = a ++ tp_body (receive first arrivals) ++ b.
Proof.
  pose (blk := fun x : N => repeat x 16).
  pose (body := blk 0 ++ blk 1 ++ blk 2).
  pose (s0 := mkTp 0 true (blk 0)). pose (s1 := mkTp 1 true (blk 1)). pose (s2 := mkTp 2 false (blk 2)).
  exists body, [s0; s1; s2], s1, [s1; s2].
  split; [|split; [|split; [|split]]].
  - eapply (run_more _ 16); [lia|vm_compute; reflexivity|].
    eapply (run_more _ 16); [lia|vm_compute; reflexivity|].
    eapply (run_last _ 16); [lia|vm_compute; reflexivity].
  - right. left. reflexivity.
  - cbn. intros s [<-|[<-|[]]]; tauto.
  - vm_compute. reflexivity.
  - intros (a & b & E).
    assert (L : tp_body (receive s1 [s1; s2]) = blk 1 ++ blk 1 ++ blk 2) by (vm_compute; reflexivity).
    rewrite L in E. assert (X := f_equal (@length N) E). rewrite !app_length in X. cbn in X.
    destruct a; [|cbn in X; lia]. destruct b; [|cbn in X; lia]. vm_compute in E. discriminate.
Qed.

(** join accepts a segment behind a body whose length is not a multiple of 16. *)
Lemma unaligned_accepted : exists h other, len (tp_body h) mod 16 <> 0 /\ tp_more h = true /\
  fst (tp_join h other) = None /\ 16 * tp_offset other <> len (tp_body h).
Proof. exists (mkTp 0 true (repeat 1 17)), (mkTp 1 false [2]). repeat split; vm_compute; discriminate. Qed.

Lemma tp_wire_form ubits h data room : 32 <= ubits -> tp_offset h < 2 ^ 28 ->
  size_hint (ser_tp ubits) h = 4 + len (tp_body h) /\
  serialize (ser_tp ubits) h (mkW data room) =
    (if 4 + len (tp_body h) <=? room
     then WOk (4 + len (tp_body h)) (mkW (data ++ tp_form h) (room - (4 + len (tp_body h)))) else WPanic) /\
  de_tp (tp_form h) = DOk h [].
Proof.
  intros Hu Ho. destruct (tp_emits ubits h Hu Ho) as [_ W].
  assert (L : len (tp_form h) = 4 + len (tp_body h)) by (unfold tp_form; rewrite len_app, be_len; reflexivity).
  split; [reflexivity|]. split; [|apply tp_reads; exact Ho].
  specialize (W (mkW data room)). rewrite W, L. unfold appended. rewrite L. reflexivity.
Qed.

Lemma tp_saturates h data room : 2 ^ 28 <= tp_offset h -> tp_offset h <= 0xfffffff0 -> 4 + len (tp_body h) <= room ->
  exists b, serialize (ser_tp 64) h (mkW data room) = WOk (4 + len (tp_body h)) b /\
    w_data b = data ++ tp_form (mkTp (2 ^ 28 - 1) (tp_more h) (tp_body h)).
Proof.
  intros H1 H2 Hr. rewrite tp_serialize by exact H2. rewrite wire_offset_saturates by assumption.
  destruct (tp_word_emits (N.lor 0xfffffff0 (if tp_more h then 1 else 0)) (tp_body h)) as [_ W].
  specialize (W (mkW data room)). rewrite W. rewrite len_app, be_len. change (N.of_nat 4) with 4. cbn [w_room].
  destruct (N.leb_spec (4 + len (tp_body h)) room); [|lia]. eexists. split; [reflexivity|].
  unfold appended. cbn [w_data]. unfold tp_form. cbn [tp_offset tp_more tp_body].
  change (2 ^ 28 - 1) with 268435455. destruct (tp_more h); reflexivity.
Qed.

Lemma tp_wraps_32 h data room : 2 ^ 28 <= tp_offset h -> tp_offset h <= 0xfffffff0 -> 4 + len (tp_body h) <= room ->
  exists b, serialize (ser_tp 32) h (mkW data room) = WOk (4 + len (tp_body h)) b /\
    w_data b = data ++ tp_form (mkTp (tp_offset h mod 2 ^ 28) (tp_more h) (tp_body h)).
Proof.
  intros H1 H2 Hr. rewrite tp_serialize by exact H2. rewrite wire_offset_wraps.
  destruct (tp_word_emits (N.lor (tp_offset h mod 2 ^ 28 * 16) (if tp_more h then 1 else 0)) (tp_body h)) as [_ W].
  specialize (W (mkW data room)). rewrite W. rewrite len_app, be_len. change (N.of_nat 4) with 4. cbn [w_room].
  destruct (N.leb_spec (4 + len (tp_body h)) room); [|lia]. eexists. split; [reflexivity|].
  unfold appended. cbn [w_data]. unfold tp_form. cbn [tp_offset tp_more tp_body].
  change (tp_offset h mod 2 ^ 28 * 16) with (tp_offset h mod 2 ^ 28 * 2 ^ 4) at 1. rewrite word_flag. reflexivity.
Qed.

Lemma tp_too_large ubits h b : 0xfffffff0 < tp_offset h ->
  serialize (ser_tp ubits) h b = WErr (SerOther (OffsetTooLarge 0xfffffff0 (tp_offset h))) b.
Proof.
  intros H. cbn [ser_tp serialize]. unfold max_offset. destruct (N.ltb_spec 0xfffffff0 (tp_offset h)); [reflexivity|lia].
Qed.

Lemma tp_any_input buf : bytes_ok buf ->
  (len buf < 4 -> de_tp buf = DErr (InsufficientData 4 (len buf)) buf) /\
  (4 <= len buf -> exists word body, word < 2 ^ 32 /\ buf = be 4 word ++ body /\
     de_tp buf = DOk (mkTp (word / 16) (N.odd word) body) []).
Proof.
  intros Hb. split.
  - intros Hl. unfold de_tp. rewrite de_uint_short by (unfold len in Hl; lia). reflexivity.
  - intros Hl. destruct (split_at buf 4 ltac:(unfold len in Hl; lia)) as (a & r & -> & Ha & _).
    apply bytes_ok_app in Hb as [Ba Br]. destruct (take_be 4 a Ha Ba) as (w & Hw & ->).
    exists w, r. split; [exact Hw|]. split; [reflexivity|]. apply tp_decode. exact Hw.
Qed.

Lemma segment_messages (m : message header (list N)) :
  wrap_segment m = msg_with_body m (mkTp 0 false (m_body m)) /\ unwrap_segment (wrap_segment m) = m /\
  (forall h rest, de_tp (m_body m) = DOk h rest -> into_segment m = inr (msg_with_body m h)) /\
  (forall e rest, de_tp (m_body m) = DErr e rest -> into_segment m = inl e).
Proof.
  split; [reflexivity|]. split; [destruct m; reflexivity|]. unfold into_segment. split; intros ? ? ->; reflexivity.
Qed.
Lemma into_segment_total (m : message header (list N)) : de_tp (m_body m) <> DPanic /\ de_tp (m_body m) <> DHang.
Proof.
  unfold de_tp. destruct (de_uint_cases 4 (m_body m)) as [[_ ->]|[_ ->]]; cbn [dbind]; split; discriminate.
Qed.
