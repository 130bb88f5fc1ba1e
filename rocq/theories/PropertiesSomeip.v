(** Property theorems C40 and C53: the message type of the runtime crate. *)
From Coq Require Import List NArith ZArith Bool Lia.
From Verif Require Import BytesModel UniverseModel WireSpec PrimitivesModel PrimitivesSpec
  MessageModel MessageSpec SomeipModel SomeipSpec SomeipTheorems.
Import ListNotations.
Open Scope N_scope.

(** C40.  The two crates speak the same wire format: the codes, the bytes written for the same
    message, and what is read from the same bytes. *)
Theorem C40_types : forall b,
  b < 256 ->
  type_view (st_from_u8 b) = (mtf_as_type b, mtf_is_tp b) /\ st_as_u8 (st_from_u8 b) = b.
Proof. exact @types_agree. Qed.
Print Assumptions C40_types.
Theorem C40_codes : forall b,
  b < 256 -> code_view (sc_from_u8 b) = rc_from_u8 b /\ sc_as_u8 (sc_from_u8 b) = b.
Proof. exact @codes_agree. Qed.
Print Assumptions C40_codes.
Theorem C40_same_bytes : forall (T : Type) (ST : Serialize T) s p buf,
  smessage_ok s -> message_ok p -> same s p ->
  size_hint (ser_smessage ST) s = size_hint (ser_msg ST) p /\
  serialize (ser_smessage ST) s buf = serialize (ser_msg ST) p buf.
Proof. exact @same_wire. Qed.
Print Assumptions C40_same_bytes.
Theorem C40_same_decoding : forall (T : Type) (dt : Deserialize T) buf,
  bytes_ok buf ->
  agree (de_smessage dt buf) (de_msg dt buf).
Proof. exact @decoders_agree. Qed.
Print Assumptions C40_same_decoding.
Theorem C40_exists_in_runtime : forall (T : Type) (p : message header T),
  message_ok p ->
  exists s, smessage_ok s /\ same s p.
Proof. exact @counterpart_back. Qed.
Print Assumptions C40_exists_in_runtime.
Theorem C40_exists_in_proto : forall (T : Type) (s : smessage T),
  smessage_ok s ->
  match s_mtype s with StUnknown v => ~ In (without_tp v) (map fst message_type_table) | _ => True end ->
  exists p, message_ok p /\ same s p.
Proof. exact @counterpart. Qed.
Print Assumptions C40_exists_in_proto.
Definition ex_s : smessage (list N) := mkS 0x1234 0x8001 3 4 1 7 StTpNotification ScTimeout [1; 2].
Definition ex_p : message header (list N) := mkMessage 0x1234 0x8001 (mkHeader 3 4 1 7 0x22 RcTimeout) [1; 2].
Example C40_example_same : same ex_s ex_p /\ smessage_ok ex_s /\ message_ok ex_p.
Proof. repeat split. Qed.
Example C40_example_bytes :
  serialize (ser_smessage ser_bytes) ex_s (mkW [] 20)
  = WOk 18 (mkW [0x12; 0x34; 0x80; 0x01; 0; 0; 0; 10; 0; 3; 0; 4; 1; 7; 0x22; 6; 1; 2] 2) /\
  serialize (ser_msg ser_bytes) ex_p (mkW [] 20)
  = WOk 18 (mkW [0x12; 0x34; 0x80; 0x01; 0; 0; 0; 10; 0; 3; 0; 4; 1; 7; 0x22; 6; 1; 2] 2).
Proof. split; reflexivity. Qed.
Example C40_example_decode :
  de_smessage de_bytes [0x12; 0x34; 0x80; 0x01; 0; 0; 0; 10; 0; 3; 0; 4; 1; 7; 0x22; 6; 1; 2; 99] = DOk ex_s [99] /\
  de_msg de_bytes [0x12; 0x34; 0x80; 0x01; 0; 0; 0; 10; 0; 3; 0; 4; 1; 7; 0x22; 6; 1; 2; 99] = DOk ex_p [99].
Proof. split; reflexivity. Qed.

(** C53.  The runtime message itself: what is written reads back, and the combined ids are
    the pairs they are made of.  The two equations on the type and the code say that the value
    is the one its byte is read as; [StUnknown 0], say, reads back as a request.  A message that is
    too long for its length field fails, and leaves its ids in the buffer. *)
Theorem C53_round_trip : forall (s : smessage (list N)) rest room,
  smessage_ok s -> bytes_ok (s_payload s) -> 8 + len (s_payload s) < 2 ^ 32 -> 16 + len (s_payload s) <= room ->
  s_mtype s = st_from_u8 (st_as_u8 (s_mtype s)) -> s_rcode s = sc_from_u8 (sc_as_u8 (s_rcode s)) ->
  len (s_form s) = 16 + len (s_payload s) /\
  size_hint (ser_smessage ser_bytes) s = len (s_form s) /\
  serialize (ser_smessage ser_bytes) s (mkW [] room) = WOk (len (s_form s)) (mkW (s_form s) (room - len (s_form s))) /\
  de_smessage de_bytes (s_form s ++ rest) = DOk s rest.
Proof. exact @s_round_trip. Qed.
Print Assumptions C53_round_trip.
Theorem C53_too_long : forall (s : smessage (list N)) data room,
  s_method s < 2 ^ 16 -> 2 ^ 32 <= 8 + len (s_payload s) -> 4 <= room ->
  serialize (ser_smessage ser_bytes) s (mkW data room) =
  WErr (InvalidLength (8 + len (s_payload s)) (2 ^ 32 - 1)) (mkW (data ++ be 2 (s_service s) ++ be 2 (s_method s)) (room - 4)).
Proof. exact @s_too_long. Qed.
Print Assumptions C53_too_long.
Theorem C53_ids : forall (T : Type) (m : smessage T) id,
  id < 2 ^ 32 ->
  (s_id (s_with_id m id) = id /\ s_service (s_with_id m id) = id / 2 ^ 16 /\ s_method (s_with_id m id) = id mod 2 ^ 16) /\
  (s_request (s_with_request m id) = id /\ s_client (s_with_request m id) = id / 2 ^ 16 /\ s_session (s_with_request m id) = id mod 2 ^ 16) /\
  s_request (s_with_id m id) = s_request m /\ s_id (s_with_request m id) = s_id m.
Proof. exact @s_ids. Qed.
Print Assumptions C53_ids.
(** Whatever builders are called, in whatever order and how often, on whatever message: every field has
    the last value given to it, and [with_id] and [with_request] give values to two fields each.  A new
    message is a request with version 1 of the protocol, no error and zeros. *)
Theorem C53_builders : forall (T : Type) (ops : list (s_op T)) m, let m' := fold_left s_apply ops m in
  s_service m' = last_given (fun o => match o with SetService v => Some v | SetId id => Some ((id / 2 ^ 16) mod 2 ^ 16) | _ => None end) (s_service m) ops /\
  s_method m' = last_given (fun o => match o with SetMethod v => Some v | SetId id => Some (id mod 2 ^ 16) | _ => None end) (s_method m) ops /\
  s_client m' = last_given (fun o => match o with SetClient v => Some v | SetRequest r => Some ((r / 2 ^ 16) mod 2 ^ 16) | _ => None end) (s_client m) ops /\
  s_session m' = last_given (fun o => match o with SetSession v => Some v | SetRequest r => Some (r mod 2 ^ 16) | _ => None end) (s_session m) ops /\
  s_protocol m' = last_given (fun o => match o with SetProtocol v => Some v | _ => None end) (s_protocol m) ops /\
  s_interface m' = last_given (fun o => match o with SetInterface v => Some v | _ => None end) (s_interface m) ops /\
  s_mtype m' = last_given (fun o => match o with SetType t => Some t | _ => None end) (s_mtype m) ops /\
  s_rcode m' = last_given (fun o => match o with SetCode c => Some c | _ => None end) (s_rcode m) ops /\
  s_payload m' = last_given (fun o => match o with SetPayload p => Some p | _ => None end) (s_payload m) ops.
Proof. exact @builders. Qed.
Print Assumptions C53_builders.
Theorem C53_new : forall (T : Type) (payload : T), smessage_ok (s_new payload) /\
  s_new payload = mkS 0 0 0 0 1 0 StRequest ScOk payload.
Proof. intros T payload. split; [repeat split|reflexivity]. Qed.
Print Assumptions C53_new.
Example C53_example :
  s_mtype ex_s = st_from_u8 (st_as_u8 (s_mtype ex_s)) /\ s_rcode ex_s = sc_from_u8 (sc_as_u8 (s_rcode ex_s)) /\
  s_service (s_with_id ex_s 0xABCD0042) = 0xABCD /\ s_method (s_with_id ex_s 0xABCD0042) = 0x42 /\
  s_request ex_s = 0x00030004.
Proof. repeat split. Qed.
Example C53_builders_example :
  fold_left s_apply [SetId 0x12348001; SetPayload [1; 2]; SetMethod 9; SetRequest 0x00030004; SetClient 7; SetType StTpNotification; SetMethod 0x8001;
                     SetInterface 7; SetClient 3; SetCode ScTimeout] (s_new []) = ex_s.
Proof. reflexivity. Qed.
