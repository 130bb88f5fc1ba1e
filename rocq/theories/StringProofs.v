(** Proofs about the string codec. *)
From Coq Require Import List NArith ZArith Bool Lia ZifyBool ZifyNat ZifyN.
From Verif Require Import BytesModel UniverseModel WireSpec BytesProofs StringModel StringSpec.
Import ListNotations.
Open Scope N_scope.
Ltac Zify.zify_post_hook ::= Z.div_mod_to_equations.
Arguments N.add : simpl never. Arguments N.mul : simpl never. Arguments N.pow : simpl never.
Arguments N.of_nat : simpl never. Arguments N.sub : simpl never.
Arguments N.div : simpl never. Arguments N.modulo : simpl never.

(** * Characters *)

Lemma lor_add h k l : l < 2 ^ k -> N.lor (h * 2 ^ k) l = h * 2 ^ k + l.
Proof.
  intros Hl.
  assert (Hz : N.land (h * 2 ^ k) l = 0).
  { apply N.bits_inj_0. intros i. rewrite N.land_spec.
    destruct (N.ltb_spec i k) as [Hi|Hi].
    - rewrite N.mul_pow2_bits_low by exact Hi. reflexivity.
    - rewrite andb_comm. destruct (N.eq_dec l 0) as [->|Hn].
      + rewrite N.bits_0. reflexivity.
      + rewrite (N.bits_above_log2 l i); [reflexivity|].
        enough (N.log2 l < k) by lia. apply N.log2_lt_pow2; [lia|exact Hl]. }
  rewrite <- N.lxor_lor by exact Hz. symmetry. apply N.add_nocarry_lxor. exact Hz.
Qed.

Lemma tail_byte x : N.lor (N.land x 0x3F) 0x80 = 0x80 + x mod 64.
Proof.
  change 0x3F with (N.ones 6). rewrite N.land_ones. rewrite N.lor_comm.
  change 0x80 with (2 * 2 ^ 6). rewrite lor_add by (apply N.mod_lt; lia). reflexivity.
Qed.

Lemma lead_byte x k m t tag : m = N.ones k -> tag = t * 2 ^ k -> x < 2 ^ k ->
  N.lor (N.land x m) tag = tag + x.
Proof.
  intros -> -> Hx. rewrite N.land_ones, N.mod_small by exact Hx. rewrite N.lor_comm. apply lor_add. exact Hx.
Qed.

Lemma encode_utf8_char_spec c : c < 0x110000 -> encode_utf8_char c = utf8_char c.
Proof.
  intros Hc. unfold encode_utf8_char, utf8_char. rewrite !N.shiftr_div_pow2, !tail_byte.
  destruct (N.ltb_spec c 0x80) as [H1|H1]; [reflexivity|].
  destruct (N.ltb_spec c 0x800) as [H2|H2].
  { rewrite (lead_byte (c / 2 ^ 6) 5 0x1F 6 0xC0); [reflexivity|reflexivity|reflexivity|].
    change (2^6) with 64. change (2^5) with 32. lia. }
  destruct (N.ltb_spec c 0x10000) as [H3|H3].
  { rewrite (lead_byte (c / 2 ^ 12) 4 0x0F 14 0xE0); [reflexivity|reflexivity|reflexivity|].
    change (2^12) with 4096. change (2^4) with 16. lia. }
  rewrite (lead_byte (c / 2 ^ 18) 3 0x07 30 0xF0); [reflexivity|reflexivity|reflexivity|].
  change (2^18) with 262144. change (2^3) with 8. lia.
Qed.

Lemma encode_utf16_char_spec c : c < 0x110000 -> encode_utf16_char c = utf16_char c.
Proof.
  intros Hc. unfold encode_utf16_char, utf16_char.
  destruct (N.ltb_spec c 0x10000) as [H1|H1]; [reflexivity|].
  rewrite N.shiftr_div_pow2. change 0x3FF with (N.ones 10). rewrite N.land_ones.
  change (2^10) with 1024.
  change 0xD800 with (54 * 2 ^ 10) at 1. change 0xDC00 with (55 * 2 ^ 10) at 1.
  rewrite !lor_add; [reflexivity| |]; change (2^10) with 1024; lia.
Qed.

Lemma scalar_lt c : scalar c -> c < 0x110000.
Proof. unfold scalar. lia. Qed.

Lemma as_bytes_spec s : Forall scalar s -> as_bytes s = utf8 s.
Proof.
  intros H. unfold as_bytes, utf8. rewrite flat_map_concat_map. f_equal.
  apply map_ext_in. intros c Hc. apply encode_utf8_char_spec, scalar_lt.
  rewrite Forall_forall in H. apply H. exact Hc.
Qed.

Lemma encode_utf16_spec s : Forall scalar s -> encode_utf16 s = utf16 s.
Proof.
  intros H. unfold encode_utf16, utf16. rewrite flat_map_concat_map. f_equal.
  apply map_ext_in. intros c Hc. apply encode_utf16_char_spec, scalar_lt.
  rewrite Forall_forall in H. apply H. exact Hc.
Qed.

Lemma is_char_scalar c : is_char c = true <-> scalar c.
Proof. unfold is_char, scalar. lia. Qed.

(** One decoding step for each length of sequence. *)
Ltac decide_ifs :=
  repeat match goal with
         | |- context [if ?b then _ else _] =>
             first [ replace b with true by (unfold cont; lia); cbv iota
                   | replace b with false by (unfold cont; lia); cbv iota ]
         end.

Lemma from_utf8_char c r : scalar c ->
  from_utf8 (utf8_char c ++ r) = option_map (cons c) (from_utf8 r).
Proof.
  intros Hc. unfold scalar in Hc. unfold utf8_char.
  destruct (N.ltb_spec c 0x80) as [H1|H1].
  { cbn [app from_utf8]. decide_ifs. reflexivity. }
  destruct (N.ltb_spec c 0x800) as [H2|H2].
  { cbn [app from_utf8]. decide_ifs. do 2 f_equal. lia. }
  destruct (N.ltb_spec c 0x10000) as [H3|H3].
  { cbn [app from_utf8]. decide_ifs. do 2 f_equal. lia. }
  cbn [app from_utf8]. decide_ifs. do 2 f_equal. lia.
Qed.

Lemma from_utf8_complete s r : Forall scalar s ->
  from_utf8 (utf8 s ++ r) = option_map (app s) (from_utf8 r).
Proof.
  intros H. induction H as [|c s Hc Hs IH]; cbn [utf8 map concat app].
  - unfold utf8. cbn. destruct (from_utf8 r); reflexivity.
  - unfold utf8 in *. cbn [map concat]. rewrite <- app_assoc, from_utf8_char by exact Hc.
    rewrite IH. destruct (from_utf8 r); reflexivity.
Qed.

Lemma utf8_cons c s : utf8 (c :: s) = utf8_char c ++ utf8 s.
Proof. reflexivity. Qed.

Ltac split_ifs H :=
  repeat match type of H with
         | (if ?b then _ else _) = _ => destruct b eqn:?
         | match ?l with [] => None | _ :: _ => _ end = _ => destruct l as [|? ?]
         end; try discriminate H.

Lemma option_map_cons_inv c (o : option (list N)) s :
  option_map (cons c) o = Some s -> exists s', o = Some s' /\ s = c :: s'.
Proof. destruct o as [s'|]; cbn; intros E; [injection E as <-; eauto|discriminate]. Qed.

Lemma from_utf8_sound_gen : forall n bs s, (length bs <= n)%nat -> bytes_ok bs ->
  from_utf8 bs = Some s -> Forall scalar s /\ bs = utf8 s.
Proof.
  assert (Hstep : forall n, (forall bs s, (length bs <= n)%nat -> bytes_ok bs ->
      from_utf8 bs = Some s -> Forall scalar s /\ bs = utf8 s) ->
      forall c pre r s', scalar c -> utf8_char c = pre -> (length r <= n)%nat -> bytes_ok r ->
      from_utf8 r = Some s' -> Forall scalar (c :: s') /\ pre ++ r = utf8 (c :: s')).
  { intros n IH c pre r s' Hc Hp Hl Hb E. destruct (IH r s' Hl Hb E) as [Hs ->].
    split; [constructor; assumption|]. rewrite utf8_cons, Hp. reflexivity. }
  induction n as [|n IH]; intros bs s Hl Hb E.
  - destruct bs; [|cbn [length] in Hl; lia]. injection E as <-. split; [constructor|reflexivity].
  - destruct bs as [|b0 r0]; [injection E as <-; split; [constructor|reflexivity]|].
    inversion Hb as [|? ? Hb0 Hr0]; subst.
    cbn [from_utf8] in E. cbn [length] in Hl. unfold cont in E. split_ifs E;
      apply option_map_cons_inv in E; destruct E as (s' & E & ->);
      repeat match goal with H : bytes_ok (_ :: _) |- _ => inversion H; subst; clear H
                        | H : Forall _ (_ :: _) |- _ => inversion H; subst; clear H end;
      cbn [length] in Hl.
    + apply (Hstep n IH b0 [b0] r0); [unfold scalar; lia| |lia|assumption|assumption].
      unfold utf8_char. decide_ifs. reflexivity.
    + match goal with H : from_utf8 ?r = Some s' |- _ /\ ?a :: ?b :: ?r = _ => apply (Hstep n IH _ [a; b] r) end; [unfold scalar; lia| |lia|assumption|assumption].
      unfold utf8_char. decide_ifs. repeat (apply (f_equal2 cons); [lia|]). reflexivity.
    + match goal with H : from_utf8 ?r = Some s' |- _ /\ ?a :: ?b :: ?c :: ?r = _ => apply (Hstep n IH _ [a; b; c] r) end; [unfold scalar; lia| |lia|assumption|assumption].
      unfold utf8_char. decide_ifs. repeat (apply (f_equal2 cons); [lia|]). reflexivity.
    + match goal with H : from_utf8 ?r = Some s' |- _ /\ ?a :: ?b :: ?c :: ?d :: ?r = _ => apply (Hstep n IH _ [a; b; c; d] r) end; [unfold scalar; lia| |lia|assumption|assumption].
      unfold utf8_char. decide_ifs. repeat (apply (f_equal2 cons); [lia|]). reflexivity.
Qed.

Lemma from_utf8_iff bs s : bytes_ok bs ->
  (from_utf8 bs = Some s <-> Forall scalar s /\ bs = utf8 s).
Proof.
  intros Hb. split.
  - apply (from_utf8_sound_gen (length bs)); [lia|exact Hb].
  - intros [Hs ->]. rewrite <- (app_nil_r (utf8 s)), from_utf8_complete by exact Hs.
    cbn. rewrite app_nil_r. reflexivity.
Qed.

Definition unit16 (u : N) : Prop := u < 65536.

Lemma from_utf16_char c r : scalar c ->
  from_utf16 (utf16_char c ++ r) = option_map (cons c) (from_utf16 r).
Proof.
  intros Hc. unfold scalar in Hc. unfold utf16_char.
  destruct (N.ltb_spec c 0x10000) as [H1|H1].
  { cbn [app from_utf16]. decide_ifs. reflexivity. }
  cbn [app from_utf16]. decide_ifs. do 2 f_equal. lia.
Qed.

Lemma utf16_cons c s : utf16 (c :: s) = utf16_char c ++ utf16 s.
Proof. reflexivity. Qed.

Lemma from_utf16_complete s : Forall scalar s -> from_utf16 (utf16 s) = Some s.
Proof.
  intros H. induction H as [|c s Hc Hs IH]; [reflexivity|].
  rewrite utf16_cons, from_utf16_char, IH by exact Hc. reflexivity.
Qed.

Lemma from_utf16_sound_gen : forall n us s, (length us <= n)%nat -> Forall unit16 us ->
  from_utf16 us = Some s -> Forall scalar s /\ us = utf16 s.
Proof.
  assert (Hstep : forall n, (forall us s, (length us <= n)%nat -> Forall unit16 us ->
      from_utf16 us = Some s -> Forall scalar s /\ us = utf16 s) ->
      forall c pre r s', scalar c -> utf16_char c = pre -> (length r <= n)%nat -> Forall unit16 r ->
      from_utf16 r = Some s' -> Forall scalar (c :: s') /\ pre ++ r = utf16 (c :: s')).
  { intros n IH c pre r s' Hc Hp Hl Hb E. destruct (IH r s' Hl Hb E) as [Hs ->].
    split; [constructor; assumption|]. rewrite utf16_cons, Hp. reflexivity. }
  induction n as [|n IH]; intros us s Hl Hb E.
  - destruct us; [|cbn [length] in Hl; lia]. injection E as <-. split; [constructor|reflexivity].
  - destruct us as [|u r]; [injection E as <-; split; [constructor|reflexivity]|].
    inversion Hb as [|? ? Hu Hr]; subst. unfold unit16 in Hu.
    cbn [from_utf16] in E. cbn [length] in Hl. split_ifs E;
      apply option_map_cons_inv in E; destruct E as (s' & E & ->);
      try (inversion Hr as [|? ? Hu2 Hr2]; subst; unfold unit16 in Hu2);
      cbn [length] in Hl.
    + apply (Hstep n IH u [u] r); [unfold scalar; lia| |lia|assumption|assumption].
      unfold utf16_char. decide_ifs. reflexivity.
    + match goal with H : from_utf16 ?r = Some s' |- _ /\ ?a :: ?b :: ?r = _ => apply (Hstep n IH _ [a; b] r) end; [unfold scalar; lia| |lia|assumption|assumption].
      unfold utf16_char. decide_ifs. repeat (apply (f_equal2 cons); [lia|]). reflexivity.
Qed.

Lemma from_utf16_iff us s : Forall unit16 us ->
  (from_utf16 us = Some s <-> Forall scalar s /\ us = utf16 s).
Proof.
  intros Hb. split.
  - apply (from_utf16_sound_gen (length us)); [lia|exact Hb].
  - intros [Hs ->]. apply from_utf16_complete. exact Hs.
Qed.

(** * The loops that read up to the terminator *)

Section Raw.
  Variable d : Deserialize N.
  Variable enc : N -> list N.
  Variable P : N -> Prop.
  Hypothesis d_reads : forall v rest, P v -> d (enc v ++ rest) = DOk v rest.
  Hypothesis d_sound : forall buf v rest, bytes_ok buf -> d buf = DOk v rest -> P v /\ buf = enc v ++ rest.
  Hypothesis enc_nonempty : forall v, (0 < length (enc v))%nat.

  Lemma raw_loop_complete raw : forall fuel rest, Forall (fun v => P v /\ v <> 0) raw -> P 0 ->
    (length (concat (map enc raw) ++ enc 0 ++ rest) < fuel)%nat ->
    raw_loop d fuel (concat (map enc raw) ++ enc 0 ++ rest) = DOk raw rest.
  Proof using d_reads enc_nonempty.
    clear d_sound. induction raw as [|v raw IH]; intros fuel rest H H0 Hf.
    - destruct fuel as [|fuel]; [lia|]. cbn [map concat app raw_loop]. rewrite d_reads by exact H0.
      reflexivity.
    - inversion H as [|? ? [Hv Hv0] Hraw]; subst. destruct fuel as [|fuel]; [lia|].
      cbn [map concat raw_loop] in *. rewrite <- app_assoc in *. rewrite d_reads by exact Hv. cbn [dbind].
      destruct (N.eqb_spec v 0) as [E|_]; [congruence|].
      rewrite IH; [reflexivity|exact Hraw|exact H0|].
      assert (Hn := enc_nonempty v). rewrite app_length in Hf. lia.
  Qed.

  Lemma raw_loop_sound : forall fuel buf raw rest, bytes_ok buf ->
    raw_loop d fuel buf = DOk raw rest ->
    Forall (fun v => P v /\ v <> 0) raw /\ P 0 /\ buf = concat (map enc raw) ++ enc 0 ++ rest.
  Proof using d_sound.
    induction fuel as [|fuel IH]; intros buf raw rest Hb E; [discriminate|].
    cbn [raw_loop] in E. destruct (d buf) as [v r|e r| |] eqn:Ed; try discriminate.
    destruct (d_sound buf v r Hb Ed) as [Hv ->]. cbn [dbind] in E.
    destruct (N.eqb_spec v 0) as [->|Hv0].
    - injection E as <- <-. repeat split; [constructor|exact Hv].
    - destruct (raw_loop d fuel r) as [raw' rest'|e' r'| |] eqn:Er; try discriminate.
      cbn [dmap dbind] in E. injection E as <- <-.
      destruct (IH r raw' rest') as (Hraw & H0 & ->); [|exact Er|].
      + unfold bytes_ok in *. rewrite Forall_app in Hb. apply Hb.
      + repeat split; [constructor; [split; assumption|exact Hraw]|exact H0|].
        cbn [map concat]. rewrite app_assoc. reflexivity.
  Qed.
End Raw.

Lemma raw_loop_no_hang d : sane d -> (forall buf, d buf <> DHang) ->
  (forall buf v rest, d buf = DOk v rest -> (length rest < length buf)%nat) ->
  forall fuel buf, (length buf < fuel)%nat -> raw_loop d fuel buf <> DHang /\ raw_loop d fuel buf <> DPanic.
Proof.
  intros Hs Hd Hc. induction fuel as [|fuel IH]; intros buf Hf; [lia|].
  cbn [raw_loop]. assert (H := Hs buf). assert (H' := Hd buf).
  destruct (d buf) as [v rest|e rest| |] eqn:Ed; cbn [dbind]; [|split; discriminate|tauto|tauto].
  destruct (v =? 0); [split; discriminate|].
  assert (Hl := Hc buf v rest Ed). destruct (IH rest ltac:(lia)) as [H1 H2].
  destruct (raw_loop d fuel rest); cbn [dmap dbind]; split; congruence.
Qed.

Lemma raw_loop_sane d : sane d -> forall fuel, sane (raw_loop d fuel).
Proof.
  intros Hs. induction fuel as [|fuel IH]; intros buf; cbn [raw_loop]; [exact I|].
  apply dbind_sane; [apply Hs|]. intros v rest. destruct (v =? 0); [exists []; reflexivity|].
  apply dbind_sane; [apply IH|]. intros v' rest'. exists []. reflexivity.
Qed.

(** Reading one byte, one unit, one swapped unit. *)
Definition enc1 (v : N) : list N := [v].
Definition enc_be (u : N) : list N := [u / 256; u mod 256].
Definition enc_le (u : N) : list N := [u mod 256; u / 256].

Lemma de1 v rest : de_uint 1 (v :: rest) = DOk v rest.
Proof.
  unfold de_uint, get_uint. rewrite len_cons. change (N.of_nat 1) with 1.
  destruct (N.ltb_spec (1 + len rest) 1); [lia|]. cbn. reflexivity.
Qed.

Lemma enc_be_be u : u < 65536 -> enc_be u = be 2 u.
Proof.
  intros H. unfold enc_be. rewrite !be_S. change (be 0 u) with (@nil N).
  change (256 ^ N.of_nat 1) with 256. change (256 ^ N.of_nat 0) with 1.
  rewrite N.div_1_r. f_equal. rewrite N.mod_small; [reflexivity|]. lia.
Qed.

Lemma de2_reads v rest : v < 65536 -> de_uint 2 (enc_be v ++ rest) = DOk v rest.
Proof. intros H. rewrite enc_be_be by exact H. apply de_uint_be. exact H. Qed.

Lemma de2_sound buf v rest : bytes_ok buf -> de_uint 2 buf = DOk v rest -> v < 65536 /\ buf = enc_be v ++ rest.
Proof.
  intros Hb E. destruct (de_uint_cases 2 buf) as [[H E']|[H E']]; rewrite E' in E; [discriminate|].
  injection E as <- <-. destruct buf as [|a [|b r]]; cbn [length] in H; try lia.
  inversion Hb as [|? ? Ha Hb']; subst. inversion Hb' as [|? ? Hbb Hr]; subst.
  cbn [firstn skipn]. rewrite from_be_value by (constructor; [exact Ha|constructor; [exact Hbb|constructor]]).
  cbn [be_value]. change (len [b]) with 1. change (len (@nil N)) with 0.
  rewrite N.pow_1_r, N.pow_0_r. unfold enc_be. cbn [app].
  split; [lia|]. repeat (apply (f_equal2 cons); [lia|]). reflexivity.
Qed.

Lemma swap_spec v : v < 65536 -> swap_bytes2 v = (v mod 256) * 256 + v / 256.
Proof.
  intros H. unfold swap_bytes2. rewrite land_255, N.shiftr_div_pow2. apply lor_shiftl_add.
  change (2 ^ 8) with 256. lia.
Qed.

Lemma de2_swap_reads v rest : v < 65536 ->
  dmap swap_bytes2 (de_uint 2 (enc_le v ++ rest)) = DOk v rest.
Proof.
  intros H. assert (E : enc_le v = enc_be ((v mod 256) * 256 + v / 256)).
  { unfold enc_le, enc_be. repeat (apply (f_equal2 cons); [lia|]). reflexivity. }
  rewrite E, de2_reads by lia. cbn [dmap dbind]. rewrite swap_spec by lia. f_equal. lia.
Qed.

Lemma de2_swap_sound buf v rest : bytes_ok buf ->
  dmap swap_bytes2 (de_uint 2 buf) = DOk v rest -> v < 65536 /\ buf = enc_le v ++ rest.
Proof.
  intros Hb E. destruct (de_uint 2 buf) as [u r|e r| |] eqn:Eu; try discriminate.
  cbn [dmap dbind] in E. destruct (de2_sound _ _ _ Hb Eu) as [Hu ->].
  assert (v = (u mod 256) * 256 + u / 256) by (rewrite <- swap_spec by exact Hu; congruence).
  assert (rest = r) by congruence. subst. split; [lia|].
  unfold enc_le, enc_be. cbn [app]. repeat (apply (f_equal2 cons); [lia|]). reflexivity.
Qed.

Lemma de1_sound buf v rest : bytes_ok buf -> de_uint 1 buf = DOk v rest -> v < 256 /\ buf = enc1 v ++ rest.
Proof.
  intros Hb E. destruct buf as [|b r].
  - rewrite de_uint_short in E by (cbn; lia). discriminate.
  - rewrite de1 in E. injection E as <- <-. inversion Hb; subst. split; [assumption|reflexivity].
Qed.

Lemma concat_enc1 raw : concat (map enc1 raw) = raw.
Proof. induction raw as [|v raw IH]; [reflexivity|]. cbn. rewrite IH. reflexivity. Qed.

(** The raw readers as exact characterisations. *)
Lemma de_raw1_iff buf raw rest : bytes_ok buf ->
  (de_raw (de_uint 1) buf = DOk raw rest <->
   Forall (fun v => v < 256 /\ v <> 0) raw /\ buf = raw ++ [0] ++ rest).
Proof.
  intros Hb. split.
  - intros E. destruct (raw_loop_sound _ enc1 (fun v => v < 256) de1_sound _ _ _ _ Hb E) as (H & _ & Hbuf).
    rewrite concat_enc1 in Hbuf. split; [exact H|exact Hbuf].
  - intros [H ->]. unfold de_raw.
    assert (E := raw_loop_complete (de_uint 1) enc1 (fun v => v < 256) (fun v r _ => de1 v r)
                   (fun v => Nat.lt_0_1) raw (S (length (raw ++ [0] ++ rest))) rest H).
    rewrite concat_enc1 in E. apply E; [lia|]. unfold enc1. lia.
Qed.

Lemma de_raw2_iff buf raw rest : bytes_ok buf ->
  (de_raw (de_uint 2) buf = DOk raw rest <->
   Forall (fun v => v < 65536 /\ v <> 0) raw /\ buf = units_be raw ++ [0; 0] ++ rest).
Proof.
  intros Hb. split.
  - intros E. destruct (raw_loop_sound _ enc_be (fun v => v < 65536) de2_sound _ _ _ _ Hb E) as (H & _ & Hbuf).
    split; [exact H|exact Hbuf].
  - intros [H ->]. unfold de_raw.
    apply (raw_loop_complete (de_uint 2) enc_be (fun v => v < 65536) de2_reads
             (fun v => Nat.lt_0_succ 1) raw _ rest H); [lia|].
    unfold units_be. fold enc_be. change (enc_be 0) with [0; 0]. lia.
Qed.

Lemma de_raw2le_iff buf raw rest : bytes_ok buf ->
  (de_raw (fun buf => dmap swap_bytes2 (de_uint 2 buf)) buf = DOk raw rest <->
   Forall (fun v => v < 65536 /\ v <> 0) raw /\ buf = units_le raw ++ [0; 0] ++ rest).
Proof.
  intros Hb. split.
  - intros E. destruct (raw_loop_sound _ enc_le (fun v => v < 65536) de2_swap_sound _ _ _ _ Hb E) as (H & _ & Hbuf).
    split; [exact H|exact Hbuf].
  - intros [H ->]. unfold de_raw.
    apply (raw_loop_complete _ enc_le (fun v => v < 65536) de2_swap_reads
             (fun v => Nat.lt_0_succ 1) raw _ rest H); [lia|].
    unfold units_le. fold enc_le. change (enc_le 0) with [0; 0]. lia.
Qed.

(** * Text forms *)

Lemma utf8_char_bytes c : scalar c -> Forall (fun b => b < 256) (utf8_char c).
Proof.
  unfold scalar, utf8_char. intros Hc.
  destruct (N.ltb_spec c 0x80); [repeat constructor; lia|].
  destruct (N.ltb_spec c 0x800); [repeat constructor; lia|].
  destruct (N.ltb_spec c 0x10000); repeat constructor; lia.
Qed.
Lemma utf8_char_nonzero c : c <> 0 -> Forall (fun b => b <> 0) (utf8_char c).
Proof.
  unfold utf8_char. intros Hc.
  destruct (N.ltb_spec c 0x80); [repeat constructor; lia|].
  destruct (N.ltb_spec c 0x800); [repeat constructor; lia|].
  destruct (N.ltb_spec c 0x10000); repeat constructor; lia.
Qed.
Lemma utf16_char_units c : scalar c -> Forall (fun u => u < 65536) (utf16_char c).
Proof.
  unfold scalar, utf16_char. intros Hc. destruct (N.ltb_spec c 0x10000); repeat constructor; lia.
Qed.
Lemma utf16_char_nonzero c : c <> 0 -> Forall (fun u => u <> 0) (utf16_char c).
Proof.
  unfold utf16_char. intros Hc. destruct (N.ltb_spec c 0x10000); repeat constructor; lia.
Qed.

Lemma Forall_concat_map {A B} (P : A -> Prop) (Q : B -> Prop) (f : A -> list B) l :
  (forall a, P a -> Forall Q (f a)) -> Forall P l -> Forall Q (concat (map f l)).
Proof.
  intros H Hl. induction Hl as [|a l Ha Hl IH]; cbn [map concat]; [constructor|].
  apply Forall_app. split; [apply H; exact Ha|exact IH].
Qed.

Lemma text_scalar s : text s -> Forall scalar s.
Proof. apply Forall_impl. tauto. Qed.
Lemma utf8_bytes s : Forall scalar s -> bytes_ok (utf8 s).
Proof. apply Forall_concat_map. exact utf8_char_bytes. Qed.
Lemma utf16_units s : Forall scalar s -> Forall (fun u => u < 65536) (utf16 s).
Proof. apply Forall_concat_map. exact utf16_char_units. Qed.
Lemma units_be_bytes us : Forall (fun u => u < 65536) us -> bytes_ok (units_be us).
Proof. apply Forall_concat_map. intros u Hu. repeat constructor; lia. Qed.
Lemma units_le_bytes us : Forall (fun u => u < 65536) us -> bytes_ok (units_le us).
Proof. apply Forall_concat_map. intros u Hu. repeat constructor; lia. Qed.

Lemma Forall_and_intro {A} (P Q : A -> Prop) l : Forall P l -> Forall Q l -> Forall (fun x => P x /\ Q x) l.
Proof. intros H1 H2. rewrite Forall_forall in *. auto. Qed.

(** The form of a string determines that no terminator occurs in it. *)
Lemma utf8_text s : Forall scalar s ->
  (Forall (fun v => v < 256 /\ v <> 0) (utf8 s) <-> text s).
Proof.
  intros Hs. split.
  - intros H. unfold text. rewrite Forall_forall in *. intros c Hc. split; [apply Hs; exact Hc|].
    intros ->. destruct (H 0) as [_ H0]; [|congruence].
    unfold utf8. apply in_concat. exists [0]. split; [|left; reflexivity].
    change [0] with (utf8_char 0). apply in_map. exact Hc.
  - intros H. apply Forall_and_intro; [apply utf8_bytes; exact Hs|].
    apply (Forall_concat_map (fun c => scalar c /\ c <> 0)); [|exact H].
    intros c [_ Hc]. apply utf8_char_nonzero. exact Hc.
Qed.
Lemma utf16_text s : Forall scalar s ->
  (Forall (fun v => v < 65536 /\ v <> 0) (utf16 s) <-> text s).
Proof.
  intros Hs. split.
  - intros H. unfold text. rewrite Forall_forall in *. intros c Hc. split; [apply Hs; exact Hc|].
    intros ->. destruct (H 0) as [_ H0]; [|congruence].
    unfold utf16. apply in_concat. exists [0]. split; [|left; reflexivity].
    change [0] with (utf16_char 0). apply in_map. exact Hc.
  - intros H. apply Forall_and_intro; [apply utf16_units; exact Hs|].
    apply (Forall_concat_map (fun c => scalar c /\ c <> 0)); [|exact H].
    intros c [_ Hc]. apply utf16_char_nonzero. exact Hc.
Qed.

(** * The decoder *)

Lemma Forall_fst {A} (P Q : A -> Prop) l : Forall (fun x => P x /\ Q x) l -> Forall P l.
Proof. apply Forall_impl. tauto. Qed.

Lemma deserialize_utf8_iff buf s rest : bytes_ok buf ->
  (deserialize_utf8 buf = DOk s rest <-> text s /\ buf = 0xBF :: utf8 s ++ [0] ++ rest).
Proof.
  intros Hb. unfold deserialize_utf8. split.
  - intros E. destruct (de_uint 1 buf) as [bom r|e r| |] eqn:Ed; try discriminate.
    cbn [dbind] in E. destruct (de1_sound _ _ _ Hb Ed) as [_ ->].
    destruct (N.eqb_spec bom 0xBF) as [->|]; cbn [negb] in E; [|discriminate].
    assert (Hr : bytes_ok r) by (inversion Hb; assumption).
    destruct (de_raw (de_uint 1) r) as [raw rest'|e r'| |] eqn:Er; try discriminate.
    cbn [dbind] in E. destruct (from_utf8 raw) as [s'|] eqn:Es; [|discriminate].
    injection E as <- <-. apply de_raw1_iff in Er; [|exact Hr]. destruct Er as [Hraw ->].
    apply from_utf8_iff in Es; [|apply (Forall_fst _ _ _ Hraw)]. destruct Es as [Hs ->].
    split; [apply utf8_text; assumption|reflexivity].
  - intros [Ht ->]. rewrite de1. cbn [dbind negb]. change (0xBF =? 0xBF) with true. cbn [negb].
    assert (Hs := text_scalar _ Ht).
    assert (E : de_raw (de_uint 1) (utf8 s ++ [0] ++ rest) = DOk (utf8 s) rest).
    { apply de_raw1_iff; [inversion Hb; assumption|]. split; [apply utf8_text; assumption|reflexivity]. }
    rewrite E. cbn [dbind]. rewrite (proj2 (from_utf8_iff (utf8 s) s (utf8_bytes s Hs)) (conj Hs eq_refl)).
    reflexivity.
Qed.

Lemma deserialize_utf16_iff host is_be buf s rest : bytes_ok buf ->
  (deserialize_utf16 host is_be buf = DOk s rest <->
   text s /\ buf = (if is_be then units_be (utf16 s)
                    else match host with Little => units_le (utf16 s) | Big => units_be (utf16 s) end)
                   ++ [0; 0] ++ rest).
Proof.
  intros Hb.
  set (form := fun us : list N => if is_be then units_be us
                 else match host with Little => units_le us | Big => units_be us end).
  assert (Hraw : forall raw rest', de_raw (if is_be then de_uint 2
              else fun buf => dmap (from_be2 host) (de_uint 2 buf)) buf = DOk raw rest' <->
            Forall (fun v => v < 65536 /\ v <> 0) raw /\ buf = form raw ++ [0; 0] ++ rest').
  { intros raw rest'. unfold form. destruct is_be; [apply de_raw2_iff; exact Hb|].
    destruct host; [apply (de_raw2le_iff buf raw rest' Hb)|].
    rewrite <- (de_raw2_iff buf raw rest' Hb).
    assert (E : forall f b, raw_loop (fun buf0 => dmap (from_be2 Big) (de_uint 2 buf0)) f b =
                            raw_loop (de_uint 2) f b).
    { induction f as [|f IH]; intros b; [reflexivity|]. cbn [raw_loop].
      destruct (de_uint 2 b); cbn [dmap dbind from_be2]; try reflexivity. rewrite IH. reflexivity. }
    unfold de_raw. rewrite E. tauto. }
  unfold deserialize_utf16. cbv zeta. fold (form (utf16 s)). split.
  - intros E. destruct (de_raw _ buf) as [raw rest'|e r'| |] eqn:Er; try discriminate.
    cbn [dbind] in E. destruct (from_utf16 raw) as [s'|] eqn:Es; [|discriminate].
    injection E as <- <-. destruct (proj1 (Hraw raw rest') eq_refl) as [Hr ->].
    apply from_utf16_iff in Es; [|apply (Forall_fst _ _ _ Hr)]. destruct Es as [Hs ->].
    split; [apply utf16_text; assumption|reflexivity].
  - intros [Ht Hbuf]. assert (Hs := text_scalar _ Ht).
    assert (E := proj2 (Hraw (utf16 s) rest) (conj (proj2 (utf16_text s Hs) Ht) Hbuf)).
    rewrite E. cbn [dbind]. rewrite from_utf16_complete by exact Hs. reflexivity.
Qed.

Lemma mark_cases buf mark rest : bytes_ok buf -> de_uint 2 buf = DOk mark rest ->
  buf = [mark / 256; mark mod 256] ++ rest /\ bytes_ok rest.
Proof.
  intros Hb E. destruct (de2_sound _ _ _ Hb E) as [_ ->]. split; [reflexivity|].
  unfold bytes_ok in *. rewrite Forall_app in Hb. apply Hb.
Qed.

(** Which form is read behind the little-endian mark depends on the host. *)
Definition le_form (host : endianness) (s : list N) : list N :=
  match host with
  | Little => text_utf16_le s
  | Big => [0xFF; 0xFE] ++ units_be (utf16 s) ++ [0; 0]
  end.

Lemma de_string_iff host buf s rest : bytes_ok buf ->
  (de_string host buf = DOk s rest <->
   text s /\ (buf = text_utf8 s ++ rest \/ buf = text_utf16_be s ++ rest \/ buf = le_form host s ++ rest)).
Proof.
  intros Hb. unfold de_string. split.
  - intros E. destruct (de_uint 2 buf) as [mark r|e r| |] eqn:Em; try discriminate.
    destruct (mark_cases _ _ _ Hb Em) as [-> Hr]. cbn [dbind] in E.
    destruct (N.eqb_spec mark 0xEFBB) as [->|_].
    { apply deserialize_utf8_iff in E; [|exact Hr]. destruct E as [Ht ->]. split; [exact Ht|].
      left. unfold text_utf8. rewrite <- !app_assoc. reflexivity. }
    destruct (N.eqb_spec mark 0xFEFF) as [->|_].
    { apply deserialize_utf16_iff in E; [|exact Hr]. destruct E as [Ht ->]. split; [exact Ht|].
      right; left. unfold text_utf16_be. rewrite <- !app_assoc. reflexivity. }
    destruct (N.eqb_spec mark 0xFFFE) as [->|_]; [|discriminate].
    apply deserialize_utf16_iff in E; [|exact Hr]. destruct E as [Ht ->]. split; [exact Ht|].
    right; right. unfold le_form, text_utf16_le. destruct host; rewrite <- !app_assoc; reflexivity.
  - intros [Ht Hform].
    assert (Hm : exists mark r, buf = [mark / 256; mark mod 256] ++ r /\ mark < 65536 /\
       ((mark = 0xEFBB /\ r = 0xBF :: utf8 s ++ [0] ++ rest) \/
        (mark = 0xFEFF /\ r = units_be (utf16 s) ++ [0; 0] ++ rest) \/
        (mark = 0xFFFE /\ r = (match host with Little => units_le (utf16 s) | Big => units_be (utf16 s) end)
                              ++ [0; 0] ++ rest))).
    { destruct Hform as [->|[->| ->]].
      - exists 0xEFBB. eexists. split; [|split; [lia|left; split; [reflexivity|reflexivity]]].
        unfold text_utf8. rewrite <- !app_assoc. reflexivity.
      - exists 0xFEFF. eexists. split; [|split; [lia|right; left; split; [reflexivity|reflexivity]]].
        unfold text_utf16_be. rewrite <- !app_assoc. reflexivity.
      - exists 0xFFFE. eexists. split; [|split; [lia|right; right; split; [reflexivity|reflexivity]]].
        unfold le_form, text_utf16_le. destruct host; rewrite <- !app_assoc; reflexivity. }
    destruct Hm as (mark & r & Hbuf & Hmark & Hcase).
    assert (E : de_uint 2 buf = DOk mark r) by (rewrite Hbuf; apply de2_reads; exact Hmark).
    destruct (mark_cases _ _ _ Hb E) as [_ Hr]. rewrite E. cbn [dbind].
    destruct Hcase as [[-> Hr']|[[-> Hr']|[-> Hr']]].
    + change (0xEFBB =? 0xEFBB) with true. cbv iota. apply deserialize_utf8_iff; [exact Hr|]. split; assumption.
    + change (0xFEFF =? 0xEFBB) with false. change (0xFEFF =? 0xFEFF) with true. cbv iota.
      apply deserialize_utf16_iff; [exact Hr|]. split; assumption.
    + change (0xFFFE =? 0xEFBB) with false. change (0xFFFE =? 0xFEFF) with false.
      change (0xFFFE =? 0xFFFE) with true. cbv iota.
      apply deserialize_utf16_iff; [exact Hr|]. split; assumption.
Qed.

(** ** It always returns *)

Lemma de_uint_consumes k buf v rest : (0 < k)%nat -> de_uint k buf = DOk v rest -> (length rest < length buf)%nat.
Proof.
  intros Hk E. destruct (de_uint_cases k buf) as [[H E']|[H E']]; rewrite E' in E; [discriminate|].
  injection E as _ <-. rewrite skipn_length. lia.
Qed.
Lemma de_uint_no_hang k buf : de_uint k buf <> DHang.
Proof. destruct (de_uint_cases k buf) as [[H ->]|[H ->]]; discriminate. Qed.

Lemma de_raw_sane d : sane d -> sane (de_raw d).
Proof. intros H buf. apply raw_loop_sane. exact H. Qed.

Lemma de_raw_no_hang f k buf : (0 < k)%nat -> de_raw (fun b => dmap f (de_uint k b)) buf <> DHang.
Proof.
  intros Hk. unfold de_raw. apply raw_loop_no_hang; [apply dmap_sane, de_uint_sane| | |lia].
  - intros b. destruct (de_uint_cases k b) as [[H ->]|[H ->]]; discriminate.
  - intros b v rest E. destruct (de_uint k b) as [u r|e r| |] eqn:Eu; try discriminate.
    cbn [dmap dbind] in E. injection E as _ <-. apply (de_uint_consumes _ _ _ _ Hk Eu).
Qed.
Lemma de_raw_no_hang' k buf : (0 < k)%nat -> de_raw (de_uint k) buf <> DHang.
Proof.
  intros Hk. unfold de_raw. apply raw_loop_no_hang; [apply de_uint_sane|apply de_uint_no_hang| |lia].
  intros b v rest E. apply (de_uint_consumes _ _ _ _ Hk E).
Qed.

Lemma deserialize_utf16_sane host is_be : sane (deserialize_utf16 host is_be).
Proof.
  intros b. unfold deserialize_utf16. cbv zeta. apply dbind_sane.
  - apply de_raw_sane. destruct is_be; [apply de_uint_sane|apply dmap_sane, de_uint_sane].
  - intros raw r. destruct (from_utf16 raw); exists []; reflexivity.
Qed.
Lemma deserialize_utf8_sane : sane deserialize_utf8.
Proof.
  intros b. unfold deserialize_utf8. apply dbind_sane; [apply de_uint_sane|]. intros bom r.
  destruct (negb (bom =? 0xBF)); [exists []; reflexivity|].
  apply dbind_sane; [apply de_raw_sane, de_uint_sane|]. intros raw r'.
  destruct (from_utf8 raw); exists []; reflexivity.
Qed.

Lemma de_string_sane host : sane (de_string host).
Proof.
  intros buf. unfold de_string. apply dbind_sane; [apply de_uint_sane|]. intros mark rest.
  destruct (mark =? 0xEFBB); [apply deserialize_utf8_sane|].
  destruct (mark =? 0xFEFF); [apply deserialize_utf16_sane|].
  destruct (mark =? 0xFFFE); [apply deserialize_utf16_sane|].
  exists []. reflexivity.
Qed.

Lemma de_string_no_hang host buf : de_string host buf <> DHang.
Proof.
  unfold de_string. assert (Hu := de_uint_no_hang 2 buf).
  destruct (de_uint 2 buf) as [mark rest|e rest| |]; cbn [dbind]; try congruence.
  assert (H16 : forall is_be b, deserialize_utf16 host is_be b <> DHang).
  { intros is_be b. unfold deserialize_utf16. cbv zeta.
    assert (Hr : de_raw (if is_be then de_uint 2 else fun buf0 => dmap (from_be2 host) (de_uint 2 buf0)) b <> DHang)
      by (destruct is_be; [apply de_raw_no_hang'; lia|apply (de_raw_no_hang (from_be2 host) 2); lia]).
    destruct (de_raw _ b); cbn [dbind]; try congruence. destruct (from_utf16 v); discriminate. }
  destruct (mark =? 0xEFBB).
  { unfold deserialize_utf8. assert (Hu' := de_uint_no_hang 1 rest).
    destruct (de_uint 1 rest) as [bom r|e r| |]; cbn [dbind]; try congruence.
    destruct (negb (bom =? 0xBF)); [discriminate|].
    assert (Hr := de_raw_no_hang' 1 r ltac:(lia)).
    destruct (de_raw (de_uint 1) r); cbn [dbind]; try congruence. destruct (from_utf8 v); discriminate. }
  destruct (mark =? 0xFEFF); [apply H16|]. destruct (mark =? 0xFFFE); [apply H16|discriminate].
Qed.

(** * The encoder *)

Lemma ser_bytes_elems bs : bytes_ok bs -> meets (ser_slice (ser_uint 1)) (fun l => Some l) bs.
Proof.
  intros Hb. assert (H := ser_slice_meets (ser_uint 1) (fun v => Some (be 1 v)) bs
                            (fun v _ => ser_uint_meets 1 v)).
  unfold meets in *.
  assert (E : concat_all (map (fun v => Some (be 1 v)) bs) = Some bs).
  { clear H. induction Hb as [|b bs Hb Hbs IH]; [reflexivity|]. cbn [map concat_all]. rewrite IH.
    rewrite be_S. change (be 0 b) with (@nil N). change (256 ^ N.of_nat 0) with 1.
    rewrite N.div_1_r, N.mod_small by exact Hb. reflexivity. }
  rewrite E in H. exact H.
Qed.

Lemma meets_tuple {A B} (SA : Serialize A) (SB : Serialize B) a b xa xb :
  size_hint SA a = len xa /\ writes (serialize SA a) xa ->
  size_hint SB b = len xb /\ writes (serialize SB b) xb ->
  size_hint (ser_tuple_cons SA SB) (a, b) = len (xa ++ xb) /\
  writes (serialize (ser_tuple_cons SA SB) (a, b)) (xa ++ xb).
Proof.
  intros Ha Hb.
  assert (H := ser_tuple_cons_meets SA SB (fun _ => Some xa) (fun _ => Some xb) (a, b) Ha Hb).
  unfold meets in H. cbv beta in H. rewrite concat_all_2 in H. exact H.
Qed.

Lemma ser_utf8_writes s : Forall scalar s ->
  size_hint ser_utf8_tuple ([0xEF; 0xBB; 0xBF], (as_bytes s, (0, tt))) = len (text_utf8 s) /\
  writes (serialize ser_utf8_tuple ([0xEF; 0xBB; 0xBF], (as_bytes s, (0, tt)))) (text_utf8 s).
Proof.
  intros Hs. unfold text_utf8, ser_utf8_tuple.
  apply meets_tuple; [apply ser_bytes_elems; repeat constructor|].
  rewrite as_bytes_spec by exact Hs.
  apply meets_tuple; [apply ser_bytes_elems, utf8_bytes; exact Hs|].
  rewrite <- (app_nil_r [0]). apply meets_tuple; [apply (ser_uint_meets 1 0)|].
  apply (ser_tuple_nil_meets tt).
Qed.

Definition form16 (e : endianness) (s : list N) : list N :=
  match e with Little => text_utf16_le s | Big => text_utf16_be s end.
Definition units16 (e : endianness) (us : list N) : list N :=
  match e with Little => units_le us | Big => units_be us end.
Definition unit_bytes (e : endianness) : N -> list N :=
  match e with Little => to_le_bytes2 | Big => to_be_bytes 2 end.
Definition mark16 (e : endianness) : N := match e with Little => 0xFFFE | Big => 0xFEFF end.

Lemma units_elems e us : Forall (fun u => u < 65536) us ->
  writes (ser_elems (ser_slice (ser_uint 1)) (map (unit_bytes e) us) 0) (units16 e us).
Proof.
  intros Hu.
  assert (Hbytes : forall u, u < 65536 -> unit_bytes e u = match e with Little => enc_le u | Big => enc_be u end).
  { intros u H. destruct e; cbn [unit_bytes]; unfold to_le_bytes2;
      rewrite to_be_bytes_be, <- enc_be_be by exact H; reflexivity. }
  assert (Hm := ser_slice_meets (ser_slice (ser_uint 1)) (fun l => Some l) (map (unit_bytes e) us)).
  assert (Hp : forall v, In v (map (unit_bytes e) us) -> meets (ser_slice (ser_uint 1)) (fun l => Some l) v).
  { intros v Hv. apply ser_bytes_elems. apply in_map_iff in Hv. destruct Hv as (u & <- & Hin).
    rewrite Forall_forall in Hu. specialize (Hu u Hin). rewrite Hbytes by exact Hu.
    destruct e; repeat constructor; lia. }
  specialize (Hm Hp). unfold meets in Hm.
  assert (E : concat_all (map (fun l => Some l) (map (unit_bytes e) us)) = Some (units16 e us)).
  { clear - Hu Hbytes. induction Hu as [|u us Hu Hus IH]; [destruct e; reflexivity|].
    cbn [map concat_all]. rewrite IH, Hbytes by exact Hu. destruct e; reflexivity. }
  rewrite E in Hm. destruct Hm as [_ Hm]. exact Hm.
Qed.

Lemma fold_hint {A} (l : list A) : forall n, fold_left (fun size (_ : A) => size + 2) l n = n + 2 * len l.
Proof.
  induction l as [|x l IH]; intros n; cbn [fold_left]; [change (len (@nil A)) with 0; lia|].
  rewrite IH, len_cons. lia.
Qed.

Lemma units16_len e us : len (units16 e us) = 2 * len us.
Proof.
  induction us as [|u us IH]; [destruct e; reflexivity|].
  assert (E : units16 e (u :: us) = match e with Little => enc_le u | Big => enc_be u end ++ units16 e us)
    by (destruct e; reflexivity).
  rewrite E, len_app, IH, len_cons.
  assert (E2 : len (match e with Little => enc_le u | Big => enc_be u end) = 2) by (destruct e; reflexivity).
  lia.
Qed.

Lemma ser_utf16_writes e s : Forall scalar s ->
  size_hint (ser_utf16 e) s = len (form16 e s) /\
  writes (serialize (ser_utf16 e) s) (form16 e s).
Proof.
  intros Hs.
  assert (Hform : form16 e s = be 2 (mark16 e) ++ units16 e (utf16 s) ++ be 2 0) by (destruct e; reflexivity).
  split.
  - cbn [ser_utf16 size_hint]. rewrite fold_hint, Hform, !len_app, !be_len, units16_len, encode_utf16_spec by exact Hs.
    lia.
  - rewrite Hform.
    assert (W := wseq_writes _ _ _ _ (ser_uint_writes 2 (mark16 e))
                  (wseq_writes _ _ _ _ (units_elems e (utf16 s) (utf16_units s Hs)) (ser_uint_writes 2 0))).
    eapply writes_ext; [|exact W]. intros b. unfold wseq.
    assert (U : serialize (ser_utf16 e) s b =
      wbind (serialize (ser_uint 2) (mark16 e) b) (fun n b1 =>
      wbind (ser_elems (ser_slice (ser_uint 1)) (map (unit_bytes e) (encode_utf16 s)) n b1) (fun m b2 =>
      wbind (serialize (ser_uint 2) 0 b2) (fun k b3 => WOk (m + k) b3))))
      by (destruct e; reflexivity).
    rewrite U, encode_utf16_spec by exact Hs.
    destruct (serialize (ser_uint 2) (mark16 e) b) as [n b1|er b1|]; cbn [wbind]; [|reflexivity|reflexivity].
    rewrite ser_elems_total.
    destruct (ser_elems _ _ 0 b1) as [m b2|er b2|]; cbn [wbind]; [|reflexivity|reflexivity].
    destruct (serialize (ser_uint 2) 0 b2) as [k b3|er b3|]; cbn [wbind]; [|reflexivity|reflexivity].
    f_equal. lia.
Qed.
