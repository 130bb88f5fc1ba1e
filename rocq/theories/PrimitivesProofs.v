(** Proofs about the SOME/IP primitives. *)
From Coq Require Import List NArith ZArith Bool Lia ZifyBool ZifyNat ZifyN.
From Verif Require Import BytesModel UniverseModel WireSpec BytesProofs StringProofs PrimitivesModel PrimitivesSpec.
Import ListNotations.
Open Scope N_scope.
Ltac Zify.zify_post_hook ::= Z.div_mod_to_equations.
Arguments N.add : simpl never. Arguments N.mul : simpl never. Arguments N.pow : simpl never.
Arguments N.of_nat : simpl never. Arguments N.sub : simpl never.
Arguments N.div : simpl never. Arguments N.modulo : simpl never.

(** A boolean fact about every byte, by enumeration. *)
Definition all_bytes : list N := map N.of_nat (seq 0 256).
Lemma for_all_bytes (P : N -> bool) : forallb P all_bytes = true -> forall b, b < 256 -> P b = true.
Proof.
  intros H b Hb. rewrite forallb_forall in H. apply H. unfold all_bytes. apply in_map_iff.
  exists (N.to_nat b). split; [lia|]. apply in_seq. lia.
Qed.

(** * Identifiers *)

Lemma pack32 s m : m < 65536 -> N.lor (N.shiftl s 16) m = s * 65536 + m.
Proof. intros H. rewrite N.shiftl_mul_pow2. apply (lor_add s 16 m). exact H. Qed.

Lemma unpack32_hi v : v < 2 ^ 32 -> as_u16 (N.shiftr v 16) = v / 65536.
Proof.
  intros H. unfold as_u16. rewrite N.shiftr_div_pow2. change (2^16) with 65536. change (2^32) with 4294967296 in H.
  apply N.mod_small. lia.
Qed.
Lemma unpack32_lo v : as_u16 (N.land v 0xFFFF) = v mod 65536.
Proof.
  unfold as_u16. change 0xFFFF with (N.ones 16). rewrite N.land_ones. change (2^16) with 65536.
  rewrite N.mod_mod by lia. reflexivity.
Qed.

Lemma be4_split s m : m < 65536 -> be 4 (s * 65536 + m) = be 2 s ++ be 2 m.
Proof.
  intros Hm. unfold be. cbn [seq map app].
  change (4 - 1 - 0)%nat with 3%nat. change (4 - 1 - 1)%nat with 2%nat. change (4 - 1 - 2)%nat with 1%nat.
  change (4 - 1 - 3)%nat with 0%nat. change (2 - 1 - 0)%nat with 1%nat. change (2 - 1 - 1)%nat with 0%nat.
  change (256 ^ N.of_nat 3) with 16777216. change (256 ^ N.of_nat 2) with 65536.
  change (256 ^ N.of_nat 1) with 256. change (256 ^ N.of_nat 0) with 1.
  repeat (apply (f_equal2 cons); [lia|]). reflexivity.
Qed.

Lemma mid_value m : mid_method m < 65536 -> mid_as_u32 m = mid_service m * 65536 + mid_method m.
Proof. apply pack32. Qed.
Lemma rid_value r : rid_session r < 65536 -> rid_as_u32 r = rid_client r * 65536 + rid_session r.
Proof. apply pack32. Qed.

Lemma mid_from_as m : mid_service m < 65536 -> mid_method m < 65536 -> mid_from_u32 (mid_as_u32 m) = m.
Proof.
  intros Hs Hm. destruct m as [s m]. cbn [mid_service mid_method] in *.
  unfold mid_from_u32. rewrite unpack32_hi, unpack32_lo by (rewrite mid_value by exact Hm; cbn; lia).
  rewrite mid_value by exact Hm. cbn [mid_service mid_method]. f_equal; lia.
Qed.
Lemma mid_as_from v : v < 2 ^ 32 -> mid_as_u32 (mid_from_u32 v) = v /\
  mid_service (mid_from_u32 v) < 65536 /\ mid_method (mid_from_u32 v) < 65536.
Proof.
  intros Hv. unfold mid_from_u32, mid_as_u32. cbn [mid_service mid_method].
  rewrite unpack32_hi, unpack32_lo by exact Hv. change (2^32) with 4294967296 in Hv.
  rewrite pack32 by lia. lia.
Qed.
Lemma rid_from_as r : rid_client r < 65536 -> rid_session r < 65536 -> rid_from_u32 (rid_as_u32 r) = r.
Proof.
  intros Hs Hm. destruct r as [s m]. cbn [rid_client rid_session] in *.
  unfold rid_from_u32. rewrite unpack32_hi, unpack32_lo by (rewrite rid_value by exact Hm; cbn; lia).
  rewrite rid_value by exact Hm. cbn [rid_client rid_session]. f_equal; lia.
Qed.
Lemma rid_as_from v : v < 2 ^ 32 -> rid_as_u32 (rid_from_u32 v) = v /\
  rid_client (rid_from_u32 v) < 65536 /\ rid_session (rid_from_u32 v) < 65536.
Proof.
  intros Hv. unfold rid_from_u32, rid_as_u32. cbn [rid_client rid_session].
  rewrite unpack32_hi, unpack32_lo by exact Hv. change (2^32) with 4294967296 in Hv.
  rewrite pack32 by lia. lia.
Qed.

Lemma mid_wire m data room : mid_method m < 65536 -> 4 <= room ->
  serialize ser_message_id m (mkW data room)
  = WOk 4 (mkW (data ++ be 2 (mid_service m) ++ be 2 (mid_method m)) (room - 4)).
Proof.
  intros Hm Hr. cbn [ser_message_id serialize]. rewrite mid_value by exact Hm.
  assert (W := ser_uint_writes 4 (mid_service m * 65536 + mid_method m) (mkW data room)).
  rewrite be_len in W. cbn [w_room] in W. change (N.of_nat 4) with 4 in W.
  destruct (N.leb_spec 4 room) in W; [|lia]. cbn [ser_uint serialize] in *. rewrite W.
  unfold appended. rewrite be_len, be4_split by exact Hm. reflexivity.
Qed.
Lemma rid_wire r data room : rid_session r < 65536 -> 4 <= room ->
  serialize ser_request_id r (mkW data room)
  = WOk 4 (mkW (data ++ be 2 (rid_client r) ++ be 2 (rid_session r)) (room - 4)).
Proof.
  intros Hm Hr. cbn [ser_request_id serialize]. rewrite rid_value by exact Hm.
  assert (W := ser_uint_writes 4 (rid_client r * 65536 + rid_session r) (mkW data room)).
  rewrite be_len in W. cbn [w_room] in W. change (N.of_nat 4) with 4 in W.
  destruct (N.leb_spec 4 room) in W; [|lia]. cbn [ser_uint serialize] in *. rewrite W.
  unfold appended. rewrite be_len, be4_split by exact Hm. reflexivity.
Qed.

Lemma mid_reads m rest : mid_service m < 65536 -> mid_method m < 65536 ->
  de_message_id (be 2 (mid_service m) ++ be 2 (mid_method m) ++ rest) = DOk m rest.
Proof.
  intros Hs Hm. rewrite app_assoc, <- be4_split by exact Hm. unfold de_message_id.
  rewrite de_uint_be by (change (256 ^ N.of_nat 4) with 4294967296; lia). cbn [dmap dbind].
  rewrite <- mid_value by exact Hm. rewrite mid_from_as by assumption. reflexivity.
Qed.
Lemma rid_reads r rest : rid_client r < 65536 -> rid_session r < 65536 ->
  de_request_id (be 2 (rid_client r) ++ be 2 (rid_session r) ++ rest) = DOk r rest.
Proof.
  intros Hs Hm. rewrite app_assoc, <- be4_split by exact Hm. unfold de_request_id.
  rewrite de_uint_be by (change (256 ^ N.of_nat 4) with 4294967296; lia). cbn [dmap dbind].
  rewrite <- rid_value by exact Hm. rewrite rid_from_as by assumption. reflexivity.
Qed.

(** * Sessions *)

Lemma increment_spec s : s < 65536 ->
  session_increment s = (s, if s =? 65535 then 1 else s + 1).
Proof.
  intros H. unfold session_increment. cbv zeta. f_equal.
  destruct (N.eqb_spec s 65535) as [->|Hn]; [reflexivity|].
  rewrite N.mod_small by lia. destruct (N.eqb_spec (s + 1) 0); [lia|reflexivity].
Qed.

Lemma increment_enabled s : s < 65536 ->
  session_is_enabled (snd (session_increment s)) = true /\ snd (session_increment s) < 65536.
Proof.
  intros H. rewrite increment_spec by exact H. cbn [snd]. unfold session_is_enabled.
  destruct (N.eqb_spec s 65535); split; lia.
Qed.

Lemma ids_nth : forall k s i, 1 <= s < 65536 -> (i < k)%nat ->
  nth_error (fst (take_ids k s)) i = Some (1 + (s - 1 + N.of_nat i) mod 65535).
Proof.
  induction k as [|k IH]; intros s i Hs Hi; [lia|].
  cbn [take_ids]. rewrite increment_spec by lia.
  set (s' := if s =? 65535 then 1 else s + 1).
  assert (Hs' : 1 <= s' < 65536) by (unfold s'; destruct (N.eqb_spec s 65535); lia).
  assert (E := IH s'). destruct (take_ids k s') as [ids s'']. cbn [fst] in *.
  destruct i as [|i].
  - cbn [nth_error]. f_equal. rewrite N.mod_small by lia. lia.
  - cbn [nth_error]. rewrite E by (assumption || lia). f_equal. f_equal.
    unfold s'. destruct (N.eqb_spec s 65535) as [->|Hn].
    + replace (65535 - 1 + N.of_nat (S i)) with (N.of_nat i + 1 * 65535) by lia.
      rewrite N.mod_add by lia. reflexivity.
    + f_equal. lia.
Qed.

Lemma ids_length : forall k s, length (fst (take_ids k s)) = k.
Proof.
  induction k as [|k IH]; intros s; [reflexivity|]. cbn [take_ids].
  destruct (session_increment s) as [id s']. specialize (IH s').
  destruct (take_ids k s') as [ids s'']. cbn [fst length] in *. lia.
Qed.

Lemma ids_distinct k s i j : 1 <= s < 65536 -> (i < j < k)%nat -> (j - i < N.to_nat 65535)%nat ->
  nth_error (fst (take_ids k s)) i <> nth_error (fst (take_ids k s)) j.
Proof.
  intros Hs Hij Hd. rewrite !ids_nth by lia. intros E. injection E as E.
  set (a := s - 1) in *. lia.
Qed.

(** * Client prefixes *)

Lemma with_prefix_value c p : c < 65536 -> p < 256 ->
  client_with_prefix c p = N.lor (c / 256) p * 256 + c mod 256.
Proof.
  intros Hc Hp. unfold client_with_prefix.
  assert (E : c = N.lor (N.shiftl (c / 256) 8) (c mod 256)).
  { rewrite lor_shiftl_add by (apply N.mod_lt; lia). lia. }
  rewrite E at 1. rewrite <- N.lor_assoc, (N.lor_comm (c mod 256)), N.lor_assoc, <- N.shiftl_lor.
  apply lor_shiftl_add. apply N.mod_lt. lia.
Qed.

Lemma lor_byte a b : a < 256 -> b < 256 -> N.lor a b < 256.
Proof.
  intros Ha Hb. destruct (N.eq_dec (N.lor a b) 0) as [->|Hn]; [lia|].
  change 256 with (2 ^ 8). apply N.log2_lt_pow2; [lia|]. rewrite N.log2_lor.
  destruct (N.eq_dec a 0) as [->|Ha0]; destruct (N.eq_dec b 0) as [->|Hb0]; cbn; try lia.
  - change (N.log2 0) with 0. rewrite N.max_0_l. apply N.log2_lt_pow2; [lia|exact Hb].
  - rewrite N.max_0_r. apply N.log2_lt_pow2; [lia|exact Ha].
  - apply N.max_lub_lt; apply N.log2_lt_pow2; try lia; assumption.
Qed.

Lemma prefix_value c : client_prefix c = c / 256 mod 256.
Proof.
  unfold client_prefix. rewrite to_be_bytes_be. rewrite be_S. cbn [nth].
  change (256 ^ N.of_nat 1) with 256. reflexivity.
Qed.

Lemma with_prefix_spec c p : c < 65536 -> p < 256 ->
  client_with_prefix c p < 65536 /\
  client_with_prefix c p mod 256 = c mod 256 /\
  client_prefix (client_with_prefix c p) = N.lor (client_prefix c) p.
Proof.
  intros Hc Hp. rewrite !prefix_value, with_prefix_value by assumption.
  assert (Hl : N.lor (c / 256) p < 256) by (apply lor_byte; [lia|exact Hp]).
  replace (c / 256 mod 256) with (c / 256) by lia. lia.
Qed.

Lemma with_prefix_iff c p : c < 65536 -> p < 256 ->
  (client_prefix (client_with_prefix c p) = p <-> N.land (client_prefix c) p = client_prefix c).
Proof.
  intros Hc Hp. destruct (with_prefix_spec c p Hc Hp) as (_ & _ & ->).
  split; intros E.
  - rewrite <- E, N.lor_comm, N.land_comm. 
    apply N.bits_inj. intros i. rewrite N.land_spec, N.lor_spec. destruct (N.testbit (client_prefix c) i), (N.testbit p i); reflexivity.
  - rewrite <- E. apply N.bits_inj. intros i. rewrite N.lor_spec, N.land_spec.
    destruct (N.testbit (client_prefix c) i), (N.testbit p i); reflexivity.
Qed.

(** * Message types and return codes *)

Lemma mt_table b : b < 256 ->
  mt_as_u8 (mt_from_u8 b) = b /\ canonical_type (mt_from_u8 b) /\
  (forall t, In (b, t) message_type_table -> mt_from_u8 b = t) /\
  (~ In b (map fst message_type_table) -> mt_from_u8 b = Unknown b).
Proof.
  intros Hb.
  assert (H1 : mt_as_u8 (mt_from_u8 b) =? b = true) by
    (apply (for_all_bytes (fun b => mt_as_u8 (mt_from_u8 b) =? b)); [vm_compute; reflexivity|exact Hb]).
  assert (H2 : match mt_from_u8 b with
               | Unknown v => (v =? b) && negb (existsb (N.eqb v) (map fst message_type_table))
               | _ => existsb (N.eqb b) (map fst message_type_table) end = true) by
    (apply (for_all_bytes (fun b => match mt_from_u8 b with
               | Unknown v => (v =? b) && negb (existsb (N.eqb v) (map fst message_type_table))
               | _ => existsb (N.eqb b) (map fst message_type_table) end)); [vm_compute; reflexivity|exact Hb]).
  assert (Hin : existsb (N.eqb b) (map fst message_type_table) = true -> In b (map fst message_type_table)).
  { intros H. apply existsb_exists in H. destruct H as (x & Hx & E). apply N.eqb_eq in E. subst. exact Hx. }
  split; [lia|]. split; [|split].
  - destruct (mt_from_u8 b) as [| | | | |v]; cbn [canonical_type]; try exact I.
    apply andb_true_iff in H2. destruct H2 as [Ev Hn]. apply N.eqb_eq in Ev. subst v. split; [exact Hb|].
    intros Hi. apply negb_true_iff in Hn.
    assert (existsb (N.eqb b) (map fst message_type_table) = true)
      by (apply existsb_exists; exists b; split; [exact Hi|apply N.eqb_refl]). congruence.
  - intros t Ht. cbn [In message_type_table] in Ht.
    repeat (destruct Ht as [Ht|Ht]; [injection Ht as <- <-; reflexivity|]). contradiction.
  - intros Hn. destruct (mt_from_u8 b) as [| | | | |v]; try (elim (Hn (Hin H2))).
    apply andb_true_iff in H2. destruct H2 as [Ev _]. apply N.eqb_eq in Ev. subst v. reflexivity.
Qed.

Lemma mt_from_as t : canonical_type t -> mt_from_u8 (mt_as_u8 t) = t.
Proof.
  destruct t as [| | | | |v]; cbn [canonical_type mt_as_u8]; try reflexivity.
  intros [Hv Hn]. apply mt_table; assumption.
Qed.

Lemma mt_from_as_iff t : valid_type t -> (mt_from_u8 (mt_as_u8 t) = t <-> canonical_type t).
Proof.
  intros Hv. split; [|apply mt_from_as]. intros E. rewrite <- E. apply mt_table.
  destruct t; cbn [valid_type mt_as_u8] in *; lia.
Qed.

Lemma rc_table b : b < 256 ->
  rc_as_u8 (rc_from_u8 b) = b /\ canonical_code (rc_from_u8 b) /\
  (forall c, In (b, c) return_code_table -> rc_from_u8 b = c) /\
  (0x10 <= b <= 0x5E -> rc_from_u8 b = RcReserved b) /\
  (0x5F <= b -> rc_from_u8 b = RcOther b).
Proof.
  intros Hb.
  assert (H1 : rc_as_u8 (rc_from_u8 b) =? b = true) by
    (apply (for_all_bytes (fun b => rc_as_u8 (rc_from_u8 b) =? b)); [vm_compute; reflexivity|exact Hb]).
  assert (H2 : match rc_from_u8 b with
               | RcReserved v => (v =? b) && (0x10 <=? v) && (v <=? 0x5E)
               | RcOther v => (v =? b) && (0x5F <=? v)
               | _ => b <? 0x10 end = true) by
    (apply (for_all_bytes (fun b => match rc_from_u8 b with
               | RcReserved v => (v =? b) && (0x10 <=? v) && (v <=? 0x5E)
               | RcOther v => (v =? b) && (0x5F <=? v)
               | _ => b <? 0x10 end)); [vm_compute; reflexivity|exact Hb]).
  split; [lia|]. split; [|split; [|split]].
  - destruct (rc_from_u8 b); cbn [canonical_code]; try exact I; lia.
  - intros c Hc. cbn [In return_code_table] in Hc.
    repeat (destruct Hc as [Hc|Hc]; [injection Hc as <- <-; reflexivity|]). contradiction.
  - intros Hr. destruct (rc_from_u8 b); try lia. f_equal. lia.
  - intros Hr. destruct (rc_from_u8 b); try lia. f_equal. lia.
Qed.

Lemma rc_from_as c : canonical_code c -> rc_from_u8 (rc_as_u8 c) = c.
Proof.
  destruct c as [| | | | | | | | | | | | | | | |v|v]; cbn [canonical_code rc_as_u8]; try reflexivity; intros H.
  - apply rc_table; lia.
  - apply rc_table; lia.
Qed.

Lemma rc_from_as_iff c : valid_code c -> (rc_from_u8 (rc_as_u8 c) = c <-> canonical_code c).
Proof.
  intros Hv. split; [|apply rc_from_as]. intros E. rewrite <- E. apply rc_table.
  destruct c; cbn [valid_code rc_as_u8] in *; lia.
Qed.

Lemma canonical_valid c : canonical_code c -> rc_as_u8 c < 256.
Proof. destruct c; cbn [canonical_code rc_as_u8]; lia. Qed.

(** * The TP flag *)

Lemma tp_is_bit f : f < 256 -> mtf_is_tp f = tp_bit f.
Proof.
  intros Hf. assert (H : Bool.eqb (mtf_is_tp f) (tp_bit f) = true) by
    (apply (for_all_bytes (fun f => Bool.eqb (mtf_is_tp f) (tp_bit f))); [vm_compute; reflexivity|exact Hf]).
  apply eqb_prop. exact H.
Qed.

Lemma as_type_spec f : f < 256 -> mtf_as_type f = mt_from_u8 (without_tp f).
Proof.
  intros Hf. unfold mtf_as_type. f_equal.
  assert (H : N.land f (not_u8 all_flags) =? without_tp f = true) by
    (apply (for_all_bytes (fun f => N.land f (not_u8 all_flags) =? without_tp f)); [vm_compute; reflexivity|exact Hf]).
  lia.
Qed.

Lemma tp_flag_set f enabled : f < 256 ->
  mtf_as_type (mtf_with_flags f 0x20 enabled) = mtf_as_type f /\
  mtf_is_tp (mtf_with_flags f 0x20 enabled) = enabled /\
  without_tp (mtf_with_flags f 0x20 enabled) = without_tp f /\
  mtf_with_flags f 0x20 enabled < 256.
Proof.
  intros Hf.
  assert (H : (N.land (mtf_with_flags f 0x20 enabled) (not_u8 all_flags) =? N.land f (not_u8 all_flags)) &&
              Bool.eqb (mtf_is_tp (mtf_with_flags f 0x20 enabled)) enabled &&
              (without_tp (mtf_with_flags f 0x20 enabled) =? without_tp f) &&
              (mtf_with_flags f 0x20 enabled <? 256) = true).
  { destruct enabled; revert f Hf; apply for_all_bytes; vm_compute; reflexivity. }
  rewrite !andb_true_iff in H. destruct H as [[[H1 H2] H3] H4]. repeat split.
  - unfold mtf_as_type. f_equal. lia.
  - apply eqb_prop. exact H2.
  - lia.
  - lia.
Qed.

Lemma from_type_spec t : valid_type t ->
  (mtf_as_type (mtf_from_type t) = t <-> canonical_type t /\ tp_bit (mt_as_u8 t) = false).
Proof.
  intros Hv. assert (Hb : mt_as_u8 t < 256) by (destruct t; cbn [valid_type mt_as_u8] in *; lia).
  unfold mtf_from_type. rewrite as_type_spec by exact Hb. unfold without_tp.
  split.
  - intros E. split.
    + rewrite <- E. apply mt_table. lia.
    + destruct (tp_bit (mt_as_u8 t)) eqn:Et; [|reflexivity].
      assert (H : mt_as_u8 t - 32 = mt_as_u8 t).
      { rewrite <- E at 2. symmetry. apply mt_table. lia. }
      unfold tp_bit in Et. destruct (N.ltb_spec (mt_as_u8 t) 32) as [Hl|Hl]; [|lia].
      rewrite N.div_small in Et by exact Hl. discriminate.
  - intros [Hc ->]. rewrite N.sub_0_r. apply mt_from_as. exact Hc.
Qed.

(** Flags other than TP are not masked. *)
Lemma other_flags_change_type : exists f flags, f < 256 /\ flags < 256 /\
  mtf_as_type (mtf_with_flags f flags true) <> mtf_as_type f.
Proof. exists 0, 1. repeat split; try lia. vm_compute. discriminate. Qed.
