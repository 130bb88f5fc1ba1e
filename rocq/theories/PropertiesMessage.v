(** Property theorems C23-C28: messages. *)
From Coq Require Import List NArith ZArith Bool Lia.
From Verif Require Import BytesModel UniverseModel WireSpec PrimitivesModel PrimitivesSpec
  MessageModel MessageSpec MessageProofs MessageTheorems.
Import ListNotations.
Open Scope N_scope.

(** A request for method 0x5678 of service 0x1234 with payload 01 02 03. *)
Definition ex_header : header := mkHeader 0x0102 0x0304 1 7 0x20 RcMalformedMessage.
Definition ex_message : message header (list N) := mkMessage 0x1234 0x5678 ex_header [1; 2; 3].
Example ex_sendable : sendable ex_message.
Proof.
  unfold sendable, message_ok, header_ok, canonical_header, bytes_ok. cbn.
  repeat split; try reflexivity. repeat apply Forall_cons; try apply Forall_nil; reflexivity.
Qed.

(** C23.  The layout, for a body of any type of the universe whose wire form is [payload]
    ([TBytes] for raw bodies: there [wire] is the identity). *)
Theorem C23_layout : forall t (m : message header (value t)) payload data room,
  message_ok m -> valid t (m_body m) = true -> wire t (m_body m) = Some payload -> 8 + len payload < 2 ^ 32 ->
  let form := message_form (m_service m) (m_method m) (m_header m) payload in
  len form = 16 + len payload /\
  size_hint (ser_msg (ser t)) m = 16 + len payload /\
  serialize (ser_msg (ser t)) m (mkW data room) =
  if 16 + len payload <=? room then WOk (16 + len payload) (mkW (data ++ form) (room - (16 + len payload))) else WPanic.
Proof. exact @layout. Qed.
Print Assumptions C23_layout.
Theorem C23_too_long : forall t (m : message header (value t)) payload data room,
  message_ok m -> valid t (m_body m) = true -> wire t (m_body m) = Some payload -> 2 ^ 32 <= 8 + len payload ->
  serialize (ser_msg (ser t)) m (mkW data room) =
  if 4 <=? room
  then WErr (InvalidLength (8 + len payload) (2 ^ 32 - 1))
            (mkW (data ++ be 2 (m_service m) ++ be 2 (m_method m)) (room - 4))
  else WPanic.
Proof. exact @too_long. Qed.
Print Assumptions C23_too_long.
Theorem C23_unencodable_body : forall t (m : message header (value t)) b n b',
  message_ok m -> valid t (m_body m) = true -> wire t (m_body m) = None -> serialize (ser_msg (ser t)) m b <> WOk n b'.
Proof. exact @unencodable. Qed.
Print Assumptions C23_unencodable_body.
Theorem C23_to_bytes : forall t (m : message header (value t)) payload room,
  message_ok m -> valid t (m_body m) = true -> wire t (m_body m) = Some payload -> 8 + len payload < 2 ^ 32 -> 16 + len payload <= room ->
  msg_to_bytes ser_header (ser t) room m = BOk (message_form (m_service m) (m_method m) (m_header m) payload).
Proof. exact @to_bytes_form. Qed.
Print Assumptions C23_to_bytes.
Theorem C23_to_bytes_fails : forall t (m : message header (value t)) room,
  message_ok m -> valid t (m_body m) = true -> 4 <= room ->
  (forall payload, wire t (m_body m) = Some payload -> 2 ^ 32 <= 8 + len payload ->
     msg_to_bytes ser_header (ser t) room m = BErr (InvalidLength (8 + len payload) (2 ^ 32 - 1))) /\
  (wire t (m_body m) = None -> forall bytes, msg_to_bytes ser_header (ser t) room m <> BOk bytes).
Proof. exact @to_bytes_fails. Qed.
Print Assumptions C23_to_bytes_fails.
Example C23_too_long_case : 2 ^ 32 <= 8 + len (repeat 0 (N.to_nat (2 ^ 32))).
Proof. exact too_long_exists. Qed.
Example C23_example :
  serialize (ser_msg ser_bytes) ex_message (mkW [9] 20)
  = WOk 19 (mkW [9; 0x12; 0x34; 0x56; 0x78; 0; 0; 0; 11; 1; 2; 3; 4; 1; 7; 0x20; 9; 1; 2; 3] 1).
Proof. reflexivity. Qed.

(** C24.  Round trip. *)
Theorem C24_round_trip : forall t (m : message header (value t)) payload rest,
  message_ok m -> canonical_header (m_header m) -> framed t = true -> valid t (m_body m) = true ->
  nul_free t (m_body m) = true -> wire t (m_body m) = Some payload -> 8 + len payload < 2 ^ 32 ->
  de_msg (de t) (message_form (m_service m) (m_method m) (m_header m) payload ++ rest) = DOk m rest.
Proof. exact @round_trip_msg. Qed.
Print Assumptions C24_round_trip.
Theorem C24_bytes : forall t (m : message header (value t)) payload room rest,
  message_ok m -> canonical_header (m_header m) -> framed t = true -> valid t (m_body m) = true ->
  nul_free t (m_body m) = true -> wire t (m_body m) = Some payload -> 8 + len payload < 2 ^ 32 -> 16 + len payload <= room ->
  exists bytes, msg_to_bytes ser_header (ser t) room m = BOk bytes /\ msg_from_bytes de_header (de t) (bytes ++ rest) = DOk m rest.
Proof. exact @bytes_round_trip. Qed.
Print Assumptions C24_bytes.
Theorem C24_noncanonical_code : forall t (m : message header (value t)) payload rest,
  message_ok m -> framed t = true -> valid t (m_body m) = true ->
  nul_free t (m_body m) = true -> wire t (m_body m) = Some payload -> 8 + len payload < 2 ^ 32 ->
  de_msg (de t) (message_form (m_service m) (m_method m) (m_header m) payload ++ rest)
  = DOk (msg_with_code m (rc_from_u8 (rc_as_u8 (msg_code m)))) rest.
Proof. exact @round_trip_code. Qed.
Print Assumptions C24_noncanonical_code.
Theorem C24_generic_header : forall th tb (m : message (value th) (value tb)) xh xb data room rest,
  m_service m < 2 ^ 16 -> m_method m < 2 ^ 16 ->
  delimited th = true -> framed tb = true ->
  valid th (m_header m) = true -> valid tb (m_body m) = true ->
  nul_free th (m_header m) = true -> nul_free tb (m_body m) = true ->
  wire th (m_header m) = Some xh -> wire tb (m_body m) = Some xb -> len xh + len xb < 2 ^ 32 ->
  8 + len xh + len xb <= room ->
  let form := be 2 (m_service m) ++ be 2 (m_method m) ++ be 4 (len xh + len xb) ++ xh ++ xb in
  size_hint (ser_message (ser th) (ser tb)) m = 8 + len xh + len xb /\
  serialize (ser_message (ser th) (ser tb)) m (mkW data room)
  = WOk (8 + len xh + len xb) (mkW (data ++ form) (room - (8 + len xh + len xb))) /\
  de_message (de th) (de tb) (form ++ rest) = DOk m rest.
Proof. exact @generic_round_trip. Qed.
Print Assumptions C24_generic_header.
Example C24_example :
  de_msg de_bytes [0x12; 0x34; 0x56; 0x78; 0; 0; 0; 11; 1; 2; 3; 4; 1; 7; 0x20; 9; 1; 2; 3; 77] = DOk ex_message [77] /\
  de_msg (de (TUInt B2)) [0x12; 0x34; 0x56; 0x78; 0; 0; 0; 10; 1; 2; 3; 4; 1; 7; 0x20; 9; 1; 2]
  = DOk (mkMessage 0x1234 0x5678 ex_header 0x0102) [].
Proof. split; reflexivity. Qed.

(** C25.  Several messages in one packet. *)
Theorem C25_packet : forall ms,
  Forall sendable ms ->
  de_vec (de_msg de_bytes) (concat (map bytes_message_form ms)) = DOk ms [].
Proof. exact @packet_decodes. Qed.
Print Assumptions C25_packet.
Theorem C25_short_tail : forall ms tail,
  Forall sendable ms -> tail <> [] -> len tail < 16 ->
  exists expected available rest,
    de_vec (de_msg de_bytes) (concat (map bytes_message_form ms) ++ tail)
    = DErr (InsufficientData expected available) rest /\ available < expected.
Proof. exact @packet_short_tail. Qed.
Print Assumptions C25_short_tail.
Theorem C25_bad_message : forall ms tail e rest,
  Forall sendable ms -> tail <> [] ->
  de_msg de_bytes tail = DErr e rest ->
  de_vec (de_msg de_bytes) (concat (map bytes_message_form ms) ++ tail) = DErr e rest.
Proof. exact @packet_bad_message. Qed.
Print Assumptions C25_bad_message.
Example C25_example :
  let form := bytes_message_form ex_message in
  de_vec (de_msg de_bytes) (form ++ form) = DOk [ex_message; ex_message] [] /\
  de_vec (de_msg de_bytes) (form ++ [1; 2; 3]) = DErr (InsufficientData 2 1) [3].
Proof. split; reflexivity. Qed.

(** C26.  Length fields that do not match the data. *)
Theorem C26_any_input : forall buf,
  bytes_ok buf ->
  (len buf < 16 -> exists expected available rest,
     de_msg de_bytes buf = DErr (InsufficientData expected available) rest /\ available < expected) /\
  (16 <= len buf -> exists service method length h tail,
     service < 2 ^ 16 /\ method < 2 ^ 16 /\ length < 2 ^ 32 /\ header_ok h /\
     buf = be 2 service ++ be 2 method ++ be 4 length ++ header_form h ++ tail /\
     (8 <= length ->
      de_msg de_bytes buf =
      DOk (mkMessage service method h (firstn (N.to_nat (length - 8)) tail)) (skipn (N.to_nat (length - 8)) tail)) /\
     (length < 8 -> exists expected available rest,
      de_msg de_bytes buf = DErr (InsufficientData expected available) rest /\ available < expected)).
Proof. exact @lying_length. Qed.
Print Assumptions C26_any_input.
Theorem C26_truncated_accepted : forall m cut,
  sendable m -> cut < len (m_body m) ->
  de_msg de_bytes (firstn (N.to_nat (16 + cut)) (bytes_message_form m))
  = DOk (msg_with_body m (firstn (N.to_nat cut) (m_body m))) [].
Proof. exact @truncated_accepted. Qed.
Print Assumptions C26_truncated_accepted.
Theorem C26_total : forall buf,
  match de_msg de_bytes buf with
  | DOk _ rest | DErr _ rest => exists used, buf = used ++ rest
  | DPanic | DHang => False
  end.
Proof. exact @message_total. Qed.
Print Assumptions C26_total.
Example C26_example :
  de_msg de_bytes [0x12; 0x34; 0x56; 0x78; 0xFF; 0; 0; 0; 1; 2; 3; 4; 1; 7; 0x20; 9; 1]
  = DOk (mkMessage 0x1234 0x5678 ex_header [1]) [] /\
  de_msg de_bytes [0x12; 0x34; 0x56; 0x78; 0; 0; 0; 7; 1; 2; 3; 4; 1; 7; 0x20; 9; 1]
  = DErr (InsufficientData 1 0) [9; 1].
Proof. split; reflexivity. Qed.

(** C27.  Builders. *)
Theorem C27_new : forall (H B : Type) (header : H) (body : B),
  m_service (msg_new header body) = 0 /\ m_method (msg_new header body) = 0 /\
  m_header (msg_new header body) = header /\ m_body (msg_new header body) = body.
Proof. exact @new_message. Qed.
Print Assumptions C27_new.
Theorem C27_builders : forall (B : Type) (m : message header B),
  (forall v, observe (msg_with_service m v) = (v, m_method m, msg_client m, msg_session m, msg_protocol m,
     msg_interface m, msg_type m, mtf_is_tp (h_type (m_header m)), msg_code m, m_body m)) /\
  (forall v, observe (msg_with_method m v) = (m_service m, v, msg_client m, msg_session m, msg_protocol m,
     msg_interface m, msg_type m, mtf_is_tp (h_type (m_header m)), msg_code m, m_body m)) /\
  (forall i, observe (msg_with_id m i) = (mid_service i, mid_method i, msg_client m, msg_session m, msg_protocol m,
     msg_interface m, msg_type m, mtf_is_tp (h_type (m_header m)), msg_code m, m_body m)) /\
  (forall v, observe (msg_with_client m v) = (m_service m, m_method m, v, msg_session m, msg_protocol m,
     msg_interface m, msg_type m, mtf_is_tp (h_type (m_header m)), msg_code m, m_body m)) /\
  (forall v, observe (msg_with_session m v) = (m_service m, m_method m, msg_client m, v, msg_protocol m,
     msg_interface m, msg_type m, mtf_is_tp (h_type (m_header m)), msg_code m, m_body m)) /\
  (forall v, observe (msg_with_protocol m v) = (m_service m, m_method m, msg_client m, msg_session m, v,
     msg_interface m, msg_type m, mtf_is_tp (h_type (m_header m)), msg_code m, m_body m)) /\
  (forall v, observe (msg_with_interface m v) = (m_service m, m_method m, msg_client m, msg_session m, msg_protocol m,
     v, msg_type m, mtf_is_tp (h_type (m_header m)), msg_code m, m_body m)) /\
  (forall v, observe (msg_with_code m v) = (m_service m, m_method m, msg_client m, msg_session m, msg_protocol m,
     msg_interface m, msg_type m, mtf_is_tp (h_type (m_header m)), v, m_body m)) /\
  (forall v : B, observe (msg_with_body m v) = (m_service m, m_method m, msg_client m, msg_session m, msg_protocol m,
     msg_interface m, msg_type m, mtf_is_tp (h_type (m_header m)), msg_code m, v)) /\
  msg_id m = mkMessageId (m_service m) (m_method m).
Proof. exact @builders. Qed.
Print Assumptions C27_builders.
Theorem C27_type_builder : forall (B : Type) (m : message header B) t,
  canonical_type t -> tp_bit (mt_as_u8 t) = false ->
  observe (msg_with_type m t) = (m_service m, m_method m, msg_client m, msg_session m, msg_protocol m,
     msg_interface m, t, false, msg_code m, m_body m).
Proof. exact @type_builder. Qed.
Print Assumptions C27_type_builder.
Theorem C27_header_builders : forall h,
  (forall v, observe_header (h_with_client h v) = (v, h_session h, h_protocol h, h_interface h, mtf_as_type (h_type h), mtf_is_tp (h_type h), h_code h)) /\
  (forall v, observe_header (h_with_session h v) = (h_client h, v, h_protocol h, h_interface h, mtf_as_type (h_type h), mtf_is_tp (h_type h), h_code h)) /\
  (forall i, observe_header (h_with_id h i) = (rid_client i, rid_session i, h_protocol h, h_interface h, mtf_as_type (h_type h), mtf_is_tp (h_type h), h_code h)) /\
  (forall v, observe_header (h_with_protocol h v) = (h_client h, h_session h, v, h_interface h, mtf_as_type (h_type h), mtf_is_tp (h_type h), h_code h)) /\
  (forall v, observe_header (h_with_interface h v) = (h_client h, h_session h, h_protocol h, v, mtf_as_type (h_type h), mtf_is_tp (h_type h), h_code h)) /\
  (forall v, observe_header (h_with_code h v) = (h_client h, h_session h, h_protocol h, h_interface h, mtf_as_type (h_type h), mtf_is_tp (h_type h), v)) /\
  (forall t, canonical_type t -> tp_bit (mt_as_u8 t) = false ->
     observe_header (h_with_type h t) = (h_client h, h_session h, h_protocol h, h_interface h, t, false, h_code h)) /\
  h_id h = mkRequestId (h_client h) (h_session h) /\
  observe_header header_new = (0, 0, 1, 0, Request, false, RcOk).
Proof. exact @header_builders. Qed.
Print Assumptions C27_header_builders.
Theorem C27_maps : forall (H B : Type) (m : message H B),
  (forall T (f : H -> T), msg_map_header f m = mkMessage (m_service m) (m_method m) (f (m_header m)) (m_body m)) /\
  (forall T (f : B -> T), msg_map_body f m = mkMessage (m_service m) (m_method m) (m_header m) (f (m_body m))) /\
  (forall T U (f : H -> B -> T * U), msg_map f m =
     mkMessage (m_service m) (m_method m) (fst (f (m_header m) (m_body m))) (snd (f (m_header m) (m_body m)))) /\
  (forall T (h : T), msg_with_header m h = mkMessage (m_service m) (m_method m) h (m_body m)) /\
  (forall T (b : T), msg_with_body m b = mkMessage (m_service m) (m_method m) (m_header m) b) /\
  (forall h, msg_replace_header m h = (m_header m, mkMessage (m_service m) (m_method m) h (m_body m))) /\
  (forall b, msg_replace_body m b = (m_body m, mkMessage (m_service m) (m_method m) (m_header m) b)).
Proof. exact @maps. Qed.
Print Assumptions C27_maps.
Example C27_example :
  observe (msg_with_session ex_message 0xFFFF)
  = (0x1234, 0x5678, 0x0102, 0xFFFF, 1, 7, Request, true, RcMalformedMessage, [1; 2; 3]) /\
  observe (msg_with_type ex_message Request)
  = (0x1234, 0x5678, 0x0102, 0x0304, 1, 7, Request, false, RcMalformedMessage, [1; 2; 3]).
Proof. split; reflexivity. Qed.

(** C28.  Answers. *)
Theorem C28_answers : forall (B : Type) (m : message header B) c,
  observe (msg_into_response m c) = (m_service m, m_method m, msg_client m, msg_session m, msg_protocol m,
     msg_interface m, Response, false, c, m_body m) /\
  observe (msg_into_error m c) = (m_service m, m_method m, msg_client m, msg_session m, msg_protocol m,
     msg_interface m, Error, false, c, m_body m).
Proof. exact @answers. Qed.
Print Assumptions C28_answers.
Example C28_example :
  observe (msg_into_error ex_message RcNotReady)
  = (0x1234, 0x5678, 0x0102, 0x0304, 1, 7, Error, false, RcNotReady, [1; 2; 3]).
Proof. reflexivity. Qed.
