(** Proofs of the statements in PropertiesPrimitives.v that combine lemmas. *)
From Coq Require Import List NArith ZArith Bool Lia ZifyBool ZifyNat ZifyN.
From Verif Require Import BytesModel WireSpec BytesProofs StringProofs PrimitivesModel PrimitivesSpec PrimitivesProofs.
Import ListNotations.
Open Scope N_scope.
Ltac Zify.zify_post_hook ::= Z.div_mod_to_equations.
Arguments N.add : simpl never. Arguments N.mul : simpl never. Arguments N.pow : simpl never.
Arguments N.of_nat : simpl never. Arguments N.sub : simpl never.
Arguments N.div : simpl never. Arguments N.modulo : simpl never.

Lemma mid_wire_full m data room rest : mid_service m < 2 ^ 16 -> mid_method m < 2 ^ 16 -> 4 <= room ->
  serialize ser_message_id m (mkW data room)
  = WOk 4 (mkW (data ++ be 2 (mid_service m) ++ be 2 (mid_method m)) (room - 4)) /\
  size_hint ser_message_id m = 4 /\
  de_message_id (be 2 (mid_service m) ++ be 2 (mid_method m) ++ rest) = DOk m rest.
Proof. intros. split; [|split]; [apply mid_wire|reflexivity|apply mid_reads]; assumption. Qed.
Lemma rid_wire_full r data room rest : rid_client r < 2 ^ 16 -> rid_session r < 2 ^ 16 -> 4 <= room ->
  serialize ser_request_id r (mkW data room)
  = WOk 4 (mkW (data ++ be 2 (rid_client r) ++ be 2 (rid_session r)) (room - 4)) /\
  size_hint ser_request_id r = 4 /\
  de_request_id (be 2 (rid_client r) ++ be 2 (rid_session r) ++ rest) = DOk r rest.
Proof. intros. split; [|split]; [apply rid_wire|reflexivity|apply rid_reads]; assumption. Qed.

Lemma id_builders :
  (forall m v, mid_service (mid_with_service m v) = v /\ mid_method (mid_with_service m v) = mid_method m) /\
  (forall m v, mid_method (mid_with_method m v) = v /\ mid_service (mid_with_method m v) = mid_service m) /\
  (forall r v, rid_client (rid_with_client r v) = v /\ rid_session (rid_with_client r v) = rid_session r) /\
  (forall r v, rid_session (rid_with_session r v) = v /\ rid_client (rid_with_session r v) = rid_client r).
Proof. repeat split. Qed.

Lemma increment_full s : s < 2 ^ 16 ->
  fst (session_increment s) = s /\
  snd (session_increment s) = (if s =? 0xFFFF then 1 else s + 1) /\
  snd (session_increment s) <> 0 /\
  session_is_enabled (snd (session_increment s)) = true.
Proof.
  intros H. change (2 ^ 16) with 65536 in H. rewrite increment_spec by exact H. cbn [fst snd].
  unfold session_is_enabled. destruct (N.eqb_spec s 65535); repeat split; lia.
Qed.

Lemma ids_from_enabled k :
  nth_error (fst (take_ids (S k) session_enabled)) k = Some (1 + N.of_nat k mod 65535).
Proof. unfold session_enabled. rewrite ids_nth by lia. reflexivity. Qed.

Lemma ids_no_repeat k s i j : 1 <= s < 2 ^ 16 -> (i < j < k)%nat -> N.of_nat j < N.of_nat i + 65535 ->
  nth_error (fst (take_ids k s)) i <> nth_error (fst (take_ids k s)) j.
Proof. intros. apply ids_distinct; [assumption|assumption|lia]. Qed.

Lemma disabled_is_zero s : session_is_enabled s = false <-> s = session_disabled.
Proof. unfold session_is_enabled, session_disabled. lia. Qed.

Lemma prefix_high c : c < 2 ^ 16 -> client_prefix c = c / 256.
Proof. intros H. change (2 ^ 16) with 65536 in H. rewrite prefix_value. lia. Qed.

Lemma with_prefix_all c : c < 2 ^ 16 ->
  ((forall p, p < 2 ^ 8 -> client_prefix (client_with_prefix c p) = p) <-> c < 256).
Proof.
  intros Hc. split.
  - intros H. specialize (H 0 eq_refl). destruct (with_prefix_spec c 0 Hc eq_refl) as (_ & _ & E).
    rewrite E, N.lor_0_r, prefix_high in H by exact Hc. lia.
  - intros Hs p Hp. destruct (with_prefix_spec c p Hc Hp) as (_ & _ & ->).
    rewrite prefix_high by exact Hc. rewrite N.div_small by exact Hs. apply N.lor_0_l.
Qed.

Lemma mt_of_byte b : b < 256 ->
  mt_as_u8 (mt_from_u8 b) = b /\
  (forall t, In (b, t) message_type_table -> mt_from_u8 b = t) /\
  (~ In b (map fst message_type_table) -> mt_from_u8 b = Unknown b).
Proof. intros H. destruct (mt_table b H) as (? & _ & ? & ?). auto. Qed.
Lemma mt_injective a b : a < 256 -> b < 256 -> mt_from_u8 a = mt_from_u8 b -> a = b.
Proof.
  intros Ha Hb E. rewrite <- (proj1 (mt_table a Ha)), <- (proj1 (mt_table b Hb)), E. reflexivity.
Qed.
Lemma rc_of_byte b : b < 256 ->
  rc_as_u8 (rc_from_u8 b) = b /\
  (forall c, In (b, c) return_code_table -> rc_from_u8 b = c) /\
  (0x10 <= b <= 0x5E -> rc_from_u8 b = RcReserved b) /\
  (0x5F <= b -> rc_from_u8 b = RcOther b).
Proof. intros H. destruct (rc_table b H) as (? & _ & ? & ? & ?). auto. Qed.
Lemma rc_injective a b : a < 256 -> b < 256 -> rc_from_u8 a = rc_from_u8 b -> a = b.
Proof.
  intros Ha Hb E. rewrite <- (proj1 (rc_table a Ha)), <- (proj1 (rc_table b Hb)), E. reflexivity.
Qed.

Lemma mt_small t : valid_type t -> mt_as_u8 t < 256.
Proof. destruct t; cbn [valid_type mt_as_u8]; lia. Qed.
Lemma rc_small c : valid_code c -> rc_as_u8 c < 256.
Proof. destruct c; cbn [valid_code rc_as_u8]; lia. Qed.

Lemma be1 v : v < 256 -> be 1 v = [v].
Proof.
  intros H. unfold be. cbn [seq map]. change (256 ^ N.of_nat (1 - 1 - 0)) with 1. f_equal. lia.
Qed.

Lemma ser1_ok v data room : v < 256 -> 1 <= room ->
  serialize (ser_uint 1) v (mkW data room) = WOk 1 (mkW (data ++ [v]) (room - 1)).
Proof.
  intros Hv Hr. assert (W := ser_uint_writes 1 v (mkW data room)).
  rewrite be_len in W. cbn [w_room] in W. change (N.of_nat 1) with 1 in W.
  destruct (N.leb_spec 1 room) in W; [|lia]. rewrite W.
  unfold appended. rewrite be_len, be1 by exact Hv. reflexivity.
Qed.
Lemma de1_ok b rest : b < 256 -> de_uint 1 (b :: rest) = DOk b rest.
Proof.
  intros H. change (b :: rest) with ([b] ++ rest). rewrite <- (be1 b H). apply de_uint_be. exact H.
Qed.

Lemma enums_wire data room : 1 <= room ->
  (forall t, valid_type t -> serialize ser_message_type t (mkW data room) = WOk 1 (mkW (data ++ [mt_as_u8 t]) (room - 1))) /\
  (forall c, valid_code c -> serialize ser_return_code c (mkW data room) = WOk 1 (mkW (data ++ [rc_as_u8 c]) (room - 1))) /\
  (forall b rest, b < 256 -> de_message_type (b :: rest) = DOk (mt_from_u8 b) rest) /\
  (forall b rest, b < 256 -> de_return_code (b :: rest) = DOk (rc_from_u8 b) rest) /\
  de_message_type [] = DErr (InsufficientData 1 0) [] /\ de_return_code [] = DErr (InsufficientData 1 0) [].
Proof.
  intros Hr. split; [|split; [|split; [|split; [|split; reflexivity]]]].
  - intros t Ht. cbn [ser_message_type serialize]. apply ser1_ok; [apply mt_small; exact Ht|exact Hr].
  - intros t Ht. cbn [ser_return_code serialize]. apply ser1_ok; [apply rc_small; exact Ht|exact Hr].
  - intros b rest Hb. unfold de_message_type. rewrite de1_ok by exact Hb. reflexivity.
  - intros b rest Hb. unfold de_return_code. rewrite de1_ok by exact Hb. reflexivity.
Qed.

Lemma tp_flags_spec f : f < 256 ->
  mtf_is_tp f = tp_bit f /\ mtf_flags f = (if tp_bit f then 0x20 else 0).
Proof.
  intros Hf. split; [apply tp_is_bit; exact Hf|].
  assert (H : mtf_flags f =? (if tp_bit f then 0x20 else 0) = true).
  { revert f Hf. apply (for_all_bytes (fun f => mtf_flags f =? (if tp_bit f then 0x20 else 0))). vm_compute. reflexivity. }
  lia.
Qed.
