(** Model of the [Display] impls: rsomeip-proto/src/primitives.rs (P), rsomeip-proto/src/message.rs
    (M), rsomeip/src/someip.rs (S), rsomeip/src/endpoint.rs (E).  Definitions only.  A string is
    the list of its characters (all of them ASCII); only the plain forms [{}] and [{:?}] are
    modelled, not the alternate [{:#}] ones. *)
From Coq Require Import List NArith Bool Ascii String.
From Verif Require Import BytesModel PrimitivesModel MessageModel SomeipModel RuntimeModel.
Import ListNotations.
Open Scope N_scope.

(** core/fmt/num.rs: the digit characters. *)
Definition digit_char (d : N) : ascii := ascii_of_N (if d <? 10 then 48 + d else 97 + (d - 10)).

(** core/fmt/num.rs [GenericRadix::fmt_int]: digits from the least significant one, at least one. *)
Fixpoint digits_loop (fuel : nat) (base x : N) (curr : string) : string :=
  let curr := String (digit_char (x mod base)) curr in
  match fuel with
  | O => curr
  | S fuel => if x / base =? 0 then curr else digits_loop fuel base (x / base) curr
  end.
Definition digits (base x : N) : string := digits_loop (N.size_nat x) base x EmptyString.

(** core/fmt/mod.rs [Formatter::pad_integral] with the flag [0] and a width. *)
Fixpoint zeros (n : nat) : string := match n with O => EmptyString | S n => String "0" (zeros n) end.
Definition pad_zero (width : nat) (s : string) : string := (zeros (width - String.length s) ++ s)%string.

(** [{:04x?}], [{:02x?}] and [{:?}] of an unsigned integer. *)
Definition fmt_04x (v : N) : string := pad_zero 4 (digits 16 v).
Definition fmt_02x (v : N) : string := pad_zero 2 (digits 16 v).
Definition fmt_dec (v : N) : string := digits 10 v.

(** P 78-82 with 86-96: the new-types around u16 and u8. *)
Definition show_u16 (v : N) : string := fmt_04x v.
Definition show_u8 (v : N) : string := fmt_02x v.

(** P 261-277: [MessageId]; P 527-543: [RequestId]. *)
Definition show_message_id (i : message_id) : string := (show_u16 (mid_service i) ++ "." ++ show_u16 (mid_method i))%string.
Definition show_request_id (r : request_id) : string := (show_u16 (rid_client r) ++ "." ++ show_u16 (rid_session r))%string.

(** The derived [Debug] of a variant with one unnamed field. *)
Definition fmt_variant (name : string) (v : N) : string := (name ++ "(" ++ fmt_dec v ++ ")")%string.

(** P 754-767 with 677: [MessageType], by its derived [Debug]. *)
Definition show_message_type (t : message_type) : string :=
  match t with
  | Request => "Request"
  | RequestNoReturn => "RequestNoReturn"
  | Notification => "Notification"
  | Response => "Response"
  | Error => "Error"
  | Unknown v => fmt_variant "Unknown" v
  end%string.

(** P 879-892 with 771: [ReturnCode], by its derived [Debug]. *)
Definition show_return_code (c : return_code) : string :=
  match c with
  | RcOk => "Ok"
  | RcNotOk => "NotOk"
  | RcUnknownService => "UnknownService"
  | RcUnknownMethod => "UnknownMethod"
  | RcNotReady => "NotReady"
  | RcNotReachable => "NotReachable"
  | RcTimeout => "Timeout"
  | RcWrongProtocolVersion => "WrongProtocolVersion"
  | RcWrongInterfaceVersion => "WrongInterfaceVersion"
  | RcMalformedMessage => "MalformedMessage"
  | RcWrongMessageType => "WrongMessageType"
  | RcE2eRepeated => "E2eRepeated"
  | RcE2eWrongSequence => "E2eWrongSequence"
  | RcE2e => "E2e"
  | RcE2eNotAvailable => "E2eNotAvailable"
  | RcE2eNoNewData => "E2eNoNewData"
  | RcReserved v => fmt_variant "Reserved" v
  | RcOther v => fmt_variant "Other" v
  end%string.

(** M 858-882: [Header]. *)
Definition show_header (h : header) : string :=
  (show_u16 (h_client h) ++ "." ++ show_u16 (h_session h) ++ "." ++
   fmt_02x (h_type h) ++ "." ++ fmt_02x (rc_as_u8 (h_code h)))%string.

(** M 617-636: [GenericMessage]; [show] is the header's. *)
Definition show_message {H B} (show : H -> string) (m : message H B) : string :=
  (show_u16 (m_service m) ++ "." ++ show_u16 (m_method m) ++ "." ++ show (m_header m))%string.

(** S 317-345: [Message<T>] of the runtime crate. *)
Definition show_smessage {T} (m : smessage T) : string :=
  ("M." ++ fmt_04x (s_service m) ++ "." ++ fmt_04x (s_method m) ++ "." ++ fmt_04x (s_client m) ++ "." ++
   fmt_04x (s_session m) ++ "." ++ fmt_02x (st_as_u8 (s_mtype m)) ++ "." ++ fmt_02x (sc_as_u8 (s_rcode m)))%string.

(** E 152-166: [InterfaceId]. *)
Definition show_iid (i : iid) : string := ("I." ++ fmt_04x (fst i) ++ "." ++ fmt_02x (snd i))%string.
