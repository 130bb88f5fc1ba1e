(** Model of rsomeip-proto/src/tp.rs (line numbers are of that file).  Definitions only. *)
From Coq Require Import List NArith Bool.
From Verif Require Import BytesModel PrimitivesModel MessageModel.
Import ListNotations.
Open Scope N_scope.

(** 16-23: [TpHeader]. *)
Record tp := mkTp { tp_offset : N; tp_more : bool; tp_body : list N }.

(** 27-32. *)
Definition offset_unit : N := 16.
Definition max_offset : N := 0xfffffff0.

(** 35-40: [TpHeader::new]. *)
Definition tp_new (body : list N) : tp := mkTp 0 false body.

(** 82-109: [TpHeader::split]: the returned segment and the new value of self.
    [self.offset += ...] cannot overflow usize unless the caller stored an offset near
    usize::MAX in the public field; that overflow is not modelled. *)
Definition tp_split (h : tp) (limit : N) : option tp * tp :=
  if limit <? offset_unit then (None, h)
  else
    let limit := limit / offset_unit * offset_unit in
    if len (tp_body h) <=? limit
    then (None, mkTp (tp_offset h) false (tp_body h))
    else
      (Some (mkTp (tp_offset h) true (firstn (N.to_nat limit) (tp_body h))),
       mkTp (tp_offset h + limit / offset_unit) (tp_more h) (skipn (N.to_nat limit) (tp_body h))).

(** 217-228: [TpError]; [InvalidData] is never constructed. *)
Inductive tp_error :=
| UnexpectedSegment (other : tp)
| WrongOffset (expected : N) (other : tp).

(** 149-176: [TpHeader::join]: the result and the new value of self. *)
Definition tp_join (h other : tp) : option tp_error * tp :=
  if negb (tp_more h) then (Some (UnexpectedSegment other), h)
  else
    let current_offset := len (tp_body h) / offset_unit in
    if negb (current_offset =? tp_offset other) then (Some (WrongOffset current_offset other), h)
    else (None, mkTp (tp_offset h) (tp_more other) (tp_body h ++ tp_body other)).

(** 188: [u32::try_from(self.offset << 4).unwrap_or(0xffff_fff0)].  [ubits] is the width of
    usize (32 or 64); [<<] drops the bits shifted out. *)
Definition tp_wire_offset (ubits offset : N) : N :=
  let shifted := N.shiftl offset 4 mod 2 ^ ubits in
  if shifted <? 2 ^ 32 then shifted else 0xfffffff0.

(** 179-197: [impl Serialize for TpHeader]. *)
Definition ser_tp (ubits : N) : Serialize tp := {|
  serialize := fun (h : tp) b =>
    if max_offset <? tp_offset h then WErr (SerOther (OffsetTooLarge max_offset (tp_offset h))) b
    else
      let header := N.lor (tp_wire_offset ubits (tp_offset h)) (if tp_more h then 1 else 0) in
      serialize (ser_tuple_cons (ser_uint 4) (ser_tuple_cons ser_bytes ser_tuple_nil))
        (header, (tp_body h, tt)) b;
  size_hint := fun (h : tp) => 4 + size_hint ser_bytes (tp_body h)
|}.

(** 199-214: [impl Deserialize for TpHeader].  [usize::try_from] of a 28-bit value cannot fail
    on 32 and 64 bit targets. *)
Definition de_tp : Deserialize tp := fun buf =>
  dbind (de_uint 4 buf) (fun header rest =>
  DOk (mkTp (N.shiftr (N.land header 0xfffffff0) 4) (N.land header 0x1 =? 1) rest) []).

(** 251-254: [Message::into_segment]; the body is any [Buf], given by its unread bytes. *)
Definition into_segment (m : message header (list N)) : de_error + message header tp :=
  match de_tp (m_body m) with
  | DOk h _ => inr (msg_map_body (fun _ => h) m)
  | DErr e _ => inl e
  | DPanic | DHang => inl (InsufficientData 0 0)   (* not reachable: see into_segment_total *)
  end.

(** 268-270: [Message::wrap_segment]. *)
Definition wrap_segment (m : message header (list N)) : message header tp := msg_map_body tp_new m.

(** 290-292: [Message::unwrap_segment]. *)
Definition unwrap_segment (m : message header tp) : message header (list N) := msg_map_body tp_body m.
