(** Property theorems C18-C22: identifiers, message types and return codes. *)
From Coq Require Import List NArith ZArith Bool Lia.
From Verif Require Import BytesModel WireSpec BytesProofs PrimitivesModel PrimitivesSpec PrimitivesProofs PrimitivesTheorems OrderModel OrderTheorems.
Import ListNotations.
Open Scope N_scope.

(** C18.  The 32-bit ids. *)
Theorem C18_message_id_value : forall m, mid_method m < 2 ^ 16 ->
  mid_as_u32 m = mid_service m * 2 ^ 16 + mid_method m.
Proof. exact mid_value. Qed.
Print Assumptions C18_message_id_value.
Theorem C18_message_id_inverse :
  (forall m, mid_service m < 2 ^ 16 -> mid_method m < 2 ^ 16 -> mid_from_u32 (mid_as_u32 m) = m) /\
  (forall v, v < 2 ^ 32 -> mid_as_u32 (mid_from_u32 v) = v /\
     mid_service (mid_from_u32 v) < 2 ^ 16 /\ mid_method (mid_from_u32 v) < 2 ^ 16).
Proof. exact (conj mid_from_as mid_as_from). Qed.
Print Assumptions C18_message_id_inverse.
Theorem C18_message_id_wire : forall m data room rest, mid_service m < 2 ^ 16 -> mid_method m < 2 ^ 16 -> 4 <= room ->
  serialize ser_message_id m (mkW data room)
  = WOk 4 (mkW (data ++ be 2 (mid_service m) ++ be 2 (mid_method m)) (room - 4)) /\
  size_hint ser_message_id m = 4 /\
  de_message_id (be 2 (mid_service m) ++ be 2 (mid_method m) ++ rest) = DOk m rest.
Proof. exact mid_wire_full. Qed.
Print Assumptions C18_message_id_wire.
Theorem C18_request_id_value : forall r, rid_session r < 2 ^ 16 ->
  rid_as_u32 r = rid_client r * 2 ^ 16 + rid_session r.
Proof. exact rid_value. Qed.
Print Assumptions C18_request_id_value.
Theorem C18_request_id_inverse :
  (forall r, rid_client r < 2 ^ 16 -> rid_session r < 2 ^ 16 -> rid_from_u32 (rid_as_u32 r) = r) /\
  (forall v, v < 2 ^ 32 -> rid_as_u32 (rid_from_u32 v) = v /\
     rid_client (rid_from_u32 v) < 2 ^ 16 /\ rid_session (rid_from_u32 v) < 2 ^ 16).
Proof. exact (conj rid_from_as rid_as_from). Qed.
Print Assumptions C18_request_id_inverse.
Theorem C18_request_id_wire : forall r data room rest, rid_client r < 2 ^ 16 -> rid_session r < 2 ^ 16 -> 4 <= room ->
  serialize ser_request_id r (mkW data room)
  = WOk 4 (mkW (data ++ be 2 (rid_client r) ++ be 2 (rid_session r)) (room - 4)) /\
  size_hint ser_request_id r = 4 /\
  de_request_id (be 2 (rid_client r) ++ be 2 (rid_session r) ++ rest) = DOk r rest.
Proof. exact rid_wire_full. Qed.
Print Assumptions C18_request_id_wire.
Theorem C18_builders :
  (forall m v, mid_service (mid_with_service m v) = v /\ mid_method (mid_with_service m v) = mid_method m) /\
  (forall m v, mid_method (mid_with_method m v) = v /\ mid_service (mid_with_method m v) = mid_service m) /\
  (forall r v, rid_client (rid_with_client r v) = v /\ rid_session (rid_with_client r v) = rid_session r) /\
  (forall r v, rid_session (rid_with_session r v) = v /\ rid_client (rid_with_session r v) = rid_client r).
Proof. exact id_builders. Qed.
Print Assumptions C18_builders.
(** The ids are ordered as their 32-bit values are. *)
Theorem C18_order :
  (forall a b, mid_method a < 2 ^ 16 -> mid_method b < 2 ^ 16 -> mid_cmp a b = (mid_as_u32 a ?= mid_as_u32 b)) /\
  (forall a b, rid_session a < 2 ^ 16 -> rid_session b < 2 ^ 16 -> rid_cmp a b = (rid_as_u32 a ?= rid_as_u32 b)).
Proof. exact (conj mid_order rid_order). Qed.
Print Assumptions C18_order.
Example C18_order_example : mid_cmp (mkMessageId 1 0xFFFF) (mkMessageId 2 0) = Lt /\ rid_cmp (mkRequestId 7 9) (mkRequestId 7 8) = Gt.
Proof. split; reflexivity. Qed.
Example C18_example :
  mid_from_u32 0x12345678 = mkMessageId 0x1234 0x5678 /\ mid_as_u32 (mkMessageId 0x1234 0x5678) = 0x12345678 /\
  rid_from_u32 0xFFFF0001 = mkRequestId 0xFFFF 1 /\ rid_as_u32 (mkRequestId 0xFFFF 1) = 0xFFFF0001 /\
  de_message_id [0x12; 0x34; 0x56; 0x78; 9] = DOk (mkMessageId 0x1234 0x5678) [9].
Proof. vm_compute. repeat split. Qed.

(** C19.  Session ids. *)
Theorem C19_increment : forall s, s < 2 ^ 16 ->
  fst (session_increment s) = s /\
  snd (session_increment s) = (if s =? 0xFFFF then 1 else s + 1) /\
  snd (session_increment s) <> 0 /\
  session_is_enabled (snd (session_increment s)) = true.
Proof. exact increment_full. Qed.
Print Assumptions C19_increment.
(** [take_ids k s]: the ids returned by [k] calls on a counter at [s]. *)
Theorem C19_sequence : forall k s i, 1 <= s < 2 ^ 16 -> (i < k)%nat ->
  nth_error (fst (take_ids k s)) i = Some (1 + (s - 1 + N.of_nat i) mod 65535).
Proof. exact ids_nth. Qed.
Print Assumptions C19_sequence.
Theorem C19_from_enabled : forall k, 
  nth_error (fst (take_ids (S k) session_enabled)) k = Some (1 + N.of_nat k mod 65535).
Proof. exact ids_from_enabled. Qed.
Print Assumptions C19_from_enabled.
Theorem C19_no_repeat : forall k s i j, 1 <= s < 2 ^ 16 -> (i < j < k)%nat -> N.of_nat j < N.of_nat i + 65535 ->
  nth_error (fst (take_ids k s)) i <> nth_error (fst (take_ids k s)) j.
Proof. exact ids_no_repeat. Qed.
Print Assumptions C19_no_repeat.
Theorem C19_disabled_is_zero_only : forall s, session_is_enabled s = false <-> s = session_disabled.
Proof. exact disabled_is_zero. Qed.
Print Assumptions C19_disabled_is_zero_only.
Example C19_example : take_ids 4 0xFFFE = ([0xFFFE; 0xFFFF; 1; 2], 3).
Proof. reflexivity. Qed.

(** C20.  Client id prefixes. *)
Theorem C20_with_prefix : forall c p, c < 2 ^ 16 -> p < 2 ^ 8 ->
  client_with_prefix c p < 2 ^ 16 /\
  client_with_prefix c p mod 256 = c mod 256 /\
  client_prefix (client_with_prefix c p) = N.lor (client_prefix c) p.
Proof. exact with_prefix_spec. Qed.
Print Assumptions C20_with_prefix.
Theorem C20_prefix_is_high_byte : forall c, c < 2 ^ 16 -> client_prefix c = c / 256.
Proof. exact prefix_high. Qed.
Print Assumptions C20_prefix_is_high_byte.
Theorem C20_prefix_set_iff : forall c p, c < 2 ^ 16 -> p < 2 ^ 8 ->
  (client_prefix (client_with_prefix c p) = p <-> N.land (client_prefix c) p = client_prefix c).
Proof. exact with_prefix_iff. Qed.
Print Assumptions C20_prefix_set_iff.
Theorem C20_every_prefix_iff_none_before : forall c, c < 2 ^ 16 ->
  ((forall p, p < 2 ^ 8 -> client_prefix (client_with_prefix c p) = p) <-> c < 256).
Proof. exact with_prefix_all. Qed.
Print Assumptions C20_every_prefix_iff_none_before.
Example C20_example :
  client_with_prefix 0x0034 0x12 = 0x1234 /\ client_prefix 0x1234 = 0x12 /\
  client_prefix (client_with_prefix 0x1234 0x01) = 0x13.
Proof. repeat split. Qed.

(** C21.  Bytes and enums. *)
Theorem C21_message_type_of_byte : forall b, b < 256 ->
  mt_as_u8 (mt_from_u8 b) = b /\
  (forall t, In (b, t) message_type_table -> mt_from_u8 b = t) /\
  (~ In b (map fst message_type_table) -> mt_from_u8 b = Unknown b).
Proof. exact mt_of_byte. Qed.
Print Assumptions C21_message_type_of_byte.
Theorem C21_message_type_injective : forall a b, a < 256 -> b < 256 -> mt_from_u8 a = mt_from_u8 b -> a = b.
Proof. exact mt_injective. Qed.
Print Assumptions C21_message_type_injective.
Theorem C21_message_type_back_iff : forall t, valid_type t -> (mt_from_u8 (mt_as_u8 t) = t <-> canonical_type t).
Proof. exact mt_from_as_iff. Qed.
Print Assumptions C21_message_type_back_iff.
Theorem C21_return_code_of_byte : forall b, b < 256 ->
  rc_as_u8 (rc_from_u8 b) = b /\
  (forall c, In (b, c) return_code_table -> rc_from_u8 b = c) /\
  (0x10 <= b <= 0x5E -> rc_from_u8 b = RcReserved b) /\
  (0x5F <= b -> rc_from_u8 b = RcOther b).
Proof. exact rc_of_byte. Qed.
Print Assumptions C21_return_code_of_byte.
Theorem C21_return_code_injective : forall a b, a < 256 -> b < 256 -> rc_from_u8 a = rc_from_u8 b -> a = b.
Proof. exact rc_injective. Qed.
Print Assumptions C21_return_code_injective.
Theorem C21_return_code_back_iff : forall c, valid_code c -> (rc_from_u8 (rc_as_u8 c) = c <-> canonical_code c).
Proof. exact rc_from_as_iff. Qed.
Print Assumptions C21_return_code_back_iff.
Theorem C21_wire : forall data room, 1 <= room ->
  (forall t, valid_type t -> serialize ser_message_type t (mkW data room) = WOk 1 (mkW (data ++ [mt_as_u8 t]) (room - 1))) /\
  (forall c, valid_code c -> serialize ser_return_code c (mkW data room) = WOk 1 (mkW (data ++ [rc_as_u8 c]) (room - 1))) /\
  (forall b rest, b < 256 -> de_message_type (b :: rest) = DOk (mt_from_u8 b) rest) /\
  (forall b rest, b < 256 -> de_return_code (b :: rest) = DOk (rc_from_u8 b) rest) /\
  de_message_type [] = DErr (InsufficientData 1 0) [] /\ de_return_code [] = DErr (InsufficientData 1 0) [].
Proof. exact enums_wire. Qed.
Print Assumptions C21_wire.
Example C21_example :
  mt_from_u8 0x81 = Error /\ mt_from_u8 0x20 = Unknown 0x20 /\ rc_from_u8 0x0A = RcWrongMessageType /\
  rc_from_u8 0x5E = RcReserved 0x5E /\ rc_from_u8 0x5F = RcOther 0x5F /\
  mt_from_u8 (mt_as_u8 (Unknown 0)) <> Unknown 0 /\ rc_from_u8 (rc_as_u8 (RcReserved 0xFF)) <> RcReserved 0xFF.
Proof. vm_compute. repeat split; discriminate. Qed.

(** C22.  The TP flag. *)
Theorem C22_flag_leaves_type : forall f enabled, f < 256 ->
  mtf_as_type (mtf_with_flags f 0x20 enabled) = mtf_as_type f /\
  mtf_is_tp (mtf_with_flags f 0x20 enabled) = enabled /\
  without_tp (mtf_with_flags f 0x20 enabled) = without_tp f /\
  mtf_with_flags f 0x20 enabled < 256.
Proof. exact tp_flag_set. Qed.
Print Assumptions C22_flag_leaves_type.
Theorem C22_is_tp_is_bit : forall f, f < 256 ->
  mtf_is_tp f = tp_bit f /\ mtf_flags f = (if tp_bit f then 0x20 else 0).
Proof. exact tp_flags_spec. Qed.
Print Assumptions C22_is_tp_is_bit.
Theorem C22_type_ignores_flag : forall f, f < 256 -> mtf_as_type f = mt_from_u8 (without_tp f).
Proof. exact as_type_spec. Qed.
Print Assumptions C22_type_ignores_flag.
Theorem C22_from_type_iff : forall t, valid_type t ->
  (mtf_as_type (mtf_from_type t) = t <-> canonical_type t /\ tp_bit (mt_as_u8 t) = false).
Proof. exact from_type_spec. Qed.
Print Assumptions C22_from_type_iff.
Theorem C22_other_flags_change_type : exists f flags, f < 256 /\ flags < 256 /\
  mtf_as_type (mtf_with_flags f flags true) <> mtf_as_type f.
Proof. exact other_flags_change_type. Qed.
Print Assumptions C22_other_flags_change_type.
Example C22_example :
  mtf_with_flags 0x80 0x20 true = 0xA0 /\ mtf_as_type 0xA0 = Response /\ mtf_is_tp 0xA0 = true /\
  mtf_with_flags 0xA0 0x20 false = 0x80.
Proof. repeat split. Qed.
