(** Specification of the SOME/IP primitives: tables 4.x of the SOME/IP protocol
    specification, and arithmetic descriptions of the identifiers. *)
From Coq Require Import List NArith Bool.
From Verif Require Import PrimitivesModel.
Import ListNotations.
Open Scope N_scope.

(** What a byte means as a message type: the assigned values. *)
Definition message_type_table : list (N * message_type) :=
  [(0x00, Request); (0x01, RequestNoReturn); (0x02, Notification); (0x80, Response); (0x81, Error)].

(** A message type in the form in which it is received. *)
Definition canonical_type (t : message_type) : Prop :=
  match t with
  | Unknown v => v < 256 /\ ~ In v (map fst message_type_table)
  | _ => True
  end.

(** The assigned return codes. *)
Definition return_code_table : list (N * return_code) :=
  [(0x00, RcOk); (0x01, RcNotOk); (0x02, RcUnknownService); (0x03, RcUnknownMethod);
   (0x04, RcNotReady); (0x05, RcNotReachable); (0x06, RcTimeout); (0x07, RcWrongProtocolVersion);
   (0x08, RcWrongInterfaceVersion); (0x09, RcMalformedMessage); (0x0A, RcWrongMessageType);
   (0x0B, RcE2eRepeated); (0x0C, RcE2eWrongSequence); (0x0D, RcE2e); (0x0E, RcE2eNotAvailable);
   (0x0F, RcE2eNoNewData)].

(** A return code in the form in which it is received: 0x10-0x5e are reserved, the rest other. *)
Definition canonical_code (c : return_code) : Prop :=
  match c with
  | RcReserved v => 0x10 <= v /\ v <= 0x5E
  | RcOther v => 0x5F <= v /\ v < 256
  | _ => True
  end.

(** A value the Rust type can hold. *)
Definition valid_type (t : message_type) : Prop := match t with Unknown v => v < 256 | _ => True end.
Definition valid_code (c : return_code) : Prop :=
  match c with RcReserved v | RcOther v => v < 256 | _ => True end.

(** The TP bit of a message type byte. *)
Definition tp_bit (f : N) : bool := N.odd (f / 32).
(** The byte without its TP bit. *)
Definition without_tp (f : N) : N := f - (if tp_bit f then 32 else 0).

(** A counter after [k] calls of an increment, and the ids those calls returned. *)
Fixpoint take_ids (k : nat) (s : N) : list N * N :=
  match k with
  | O => ([], s)
  | S k' => let (id, s') := session_increment s in
            let (ids, s'') := take_ids k' s' in (id :: ids, s'')
  end.
