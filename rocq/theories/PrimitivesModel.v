(** Model of rsomeip-proto/src/primitives.rs.  Definitions only.

    The new-types around u8 and u16 (ServiceId, MethodId, ClientId, SessionId,
    ProtocolVersion, InterfaceVersion, MessageTypeField) are modelled by the [N] they hold;
    [new], [as_u16]/[as_u8] and the [From] impls (12-58) are the identity.  The [Display] impls
    are in DisplayModel.v. *)
From Coq Require Import List NArith Bool.
From Verif Require Import BytesModel.
Import ListNotations.
Open Scope N_scope.

(** [as u16] of a wider integer. *)
Definition as_u16 (v : N) : N := v mod 65536.

(** Bitwise complement of a u8. *)
Definition not_u8 (v : N) : N := N.lxor v 0xFF.

(** 60-76: [Serialize] and [Deserialize] of the new-types delegate to the integer. *)
Definition ser_u16 : Serialize N := ser_uint 2.
Definition ser_u8 : Serialize N := ser_uint 1.
Definition de_u16 : Deserialize N := fun buf => dmap (fun v => v) (de_uint 2 buf).
Definition de_u8 : Deserialize N := fun buf => dmap (fun v => v) (de_uint 1 buf).

(** 134-140: [MessageId]. *)
Record message_id := mkMessageId { mid_service : N; mid_method : N }.

(** 207-211: [MessageId::from_u32]. *)
Definition mid_from_u32 (value : N) : message_id :=
  mkMessageId (as_u16 (N.shiftr value 16)) (as_u16 (N.land value 0xFFFF)).

(** 225-228: [MessageId::as_u32]. *)
Definition mid_as_u32 (m : message_id) : N :=
  N.lor (N.shiftl (mid_service m) 16) (mid_method m).

(** 172-175, 189-192: [with_service], [with_method]. *)
Definition mid_with_service (m : message_id) (v : N) : message_id := mkMessageId v (mid_method m).
Definition mid_with_method (m : message_id) (v : N) : message_id := mkMessageId (mid_service m) v.

(** 243-259. *)
Definition ser_message_id : Serialize message_id := {|
  serialize := fun (m : message_id) b => serialize (ser_uint 4) (mid_as_u32 m) b;
  size_hint := fun (_ : message_id) => 4
|}.
Definition de_message_id : Deserialize message_id := fun buf => dmap mid_from_u32 (de_uint 4 buf).

(** 303-305: [ClientId::prefix]. *)
Definition client_prefix (c : N) : N := nth 0 (to_be_bytes 2 c) 0.

(** 320-323: [ClientId::with_prefix]. *)
Definition client_with_prefix (c prefix : N) : N := N.lor c (N.shiftl prefix 8).

(** 352, 355: [SessionId::DISABLED], [SessionId::ENABLED]. *)
Definition session_disabled : N := 0.
Definition session_enabled : N := 1.

(** 371-373: [SessionId::is_enabled]. *)
Definition session_is_enabled (s : N) : bool := 0 <? s.

(** 389-396: [SessionId::increment]: the returned value and the new value of self. *)
Definition session_increment (s : N) : N * N :=
  let next := (s + 1) mod 65536 in
  (s, if next =? 0 then 1 else next).

(** 403-408: [RequestId]. *)
Record request_id := mkRequestId { rid_client : N; rid_session : N }.

(** 474-478, 491-494. *)
Definition rid_from_u32 (value : N) : request_id :=
  mkRequestId (as_u16 (N.shiftr value 16)) (as_u16 (N.land value 0xFFFF)).
Definition rid_as_u32 (r : request_id) : N :=
  N.lor (N.shiftl (rid_client r) 16) (rid_session r).

(** 440-460: [with_client], [with_session]. *)
Definition rid_with_client (r : request_id) (v : N) : request_id := mkRequestId v (rid_session r).
Definition rid_with_session (r : request_id) (v : N) : request_id := mkRequestId (rid_client r) v.

(** 509-525. *)
Definition ser_request_id : Serialize request_id := {|
  serialize := fun (r : request_id) b => serialize (ser_uint 4) (rid_as_u32 r) b;
  size_hint := fun (_ : request_id) => 4
|}.
Definition de_request_id : Deserialize request_id := fun buf => dmap rid_from_u32 (de_uint 4 buf).

(** 678-692: [MessageType]. *)
Inductive message_type := Request | RequestNoReturn | Notification | Response | Error | Unknown (v : N).

(** 698-707: [MessageType::from_u8]. *)
Definition mt_from_u8 (v : N) : message_type :=
  match v with
  | 0x00 => Request
  | 0x01 => RequestNoReturn
  | 0x02 => Notification
  | 0x80 => Response
  | 0x81 => Error
  | x => Unknown x
  end.

(** 712-721: [MessageType::as_u8]. *)
Definition mt_as_u8 (t : message_type) : N :=
  match t with
  | Request => 0x00
  | RequestNoReturn => 0x01
  | Notification => 0x02
  | Response => 0x80
  | Error => 0x81
  | Unknown x => x
  end.

(** 736-752. *)
Definition ser_message_type : Serialize message_type := {|
  serialize := fun (t : message_type) b => serialize (ser_uint 1) (mt_as_u8 t) b;
  size_hint := fun (_ : message_type) => 1
|}.
Definition de_message_type : Deserialize message_type := fun buf => dmap mt_from_u8 (de_uint 1 buf).

(** 575, 578: [MessageTypeField::TP_FLAG], [ALL_FLAGS]. *)
Definition tp_flag : N := 0x20.
Definition all_flags : N := tp_flag.

(** 592-594: [is_tp]. *)
Definition mtf_is_tp (f : N) : bool := N.land f tp_flag =? tp_flag.

(** 608-610: [flags]. *)
Definition mtf_flags (f : N) : N := N.land f all_flags.

(** 628-635: [with_flags]. *)
Definition mtf_with_flags (f flags : N) (enabled : bool) : N :=
  if enabled then N.lor f flags else N.land f (not_u8 flags).

(** 651-653: [as_type]. *)
Definition mtf_as_type (f : N) : message_type := mt_from_u8 (N.land f (not_u8 all_flags)).

(** 667-669: [from_type]. *)
Definition mtf_from_type (t : message_type) : N := mt_as_u8 t.

(** 772-810: [ReturnCode]. *)
Inductive return_code :=
| RcOk | RcNotOk | RcUnknownService | RcUnknownMethod | RcNotReady | RcNotReachable | RcTimeout
| RcWrongProtocolVersion | RcWrongInterfaceVersion | RcMalformedMessage | RcWrongMessageType
| RcE2eRepeated | RcE2eWrongSequence | RcE2e | RcE2eNotAvailable | RcE2eNoNewData
| RcReserved (v : N) | RcOther (v : N).

(** 812-835: [From<u8> for ReturnCode]. *)
Definition rc_from_u8 (v : N) : return_code :=
  match v with
  | 0x00 => RcOk
  | 0x01 => RcNotOk
  | 0x02 => RcUnknownService
  | 0x03 => RcUnknownMethod
  | 0x04 => RcNotReady
  | 0x05 => RcNotReachable
  | 0x06 => RcTimeout
  | 0x07 => RcWrongProtocolVersion
  | 0x08 => RcWrongInterfaceVersion
  | 0x09 => RcMalformedMessage
  | 0x0a => RcWrongMessageType
  | 0x0b => RcE2eRepeated
  | 0x0c => RcE2eWrongSequence
  | 0x0d => RcE2e
  | 0x0e => RcE2eNotAvailable
  | 0x0f => RcE2eNoNewData
  | n => if (0x10 <=? n) && (n <=? 0x5e) then RcReserved n else RcOther n
  end.

(** 837-859: [From<ReturnCode> for u8]. *)
Definition rc_as_u8 (c : return_code) : N :=
  match c with
  | RcOk => 0x00
  | RcNotOk => 0x01
  | RcUnknownService => 0x02
  | RcUnknownMethod => 0x03
  | RcNotReady => 0x04
  | RcNotReachable => 0x05
  | RcTimeout => 0x06
  | RcWrongProtocolVersion => 0x07
  | RcWrongInterfaceVersion => 0x08
  | RcMalformedMessage => 0x09
  | RcWrongMessageType => 0x0a
  | RcE2eRepeated => 0x0b
  | RcE2eWrongSequence => 0x0c
  | RcE2e => 0x0d
  | RcE2eNotAvailable => 0x0e
  | RcE2eNoNewData => 0x0f
  | RcReserved x | RcOther x => x
  end.

(** 861-877. *)
Definition ser_return_code : Serialize return_code := {|
  serialize := fun (c : return_code) b => serialize (ser_uint 1) (rc_as_u8 c) b;
  size_hint := fun (_ : return_code) => 1
|}.
Definition de_return_code : Deserialize return_code := fun buf => dmap rc_from_u8 (de_uint 1 buf).
