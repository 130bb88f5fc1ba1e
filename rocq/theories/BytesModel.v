(** Model of rsomeip-bytes: ser.rs, de.rs, lib.rs (everything except strings,
    which are in StringModel.v).  Definitions only. *)
From Coq Require Import List NArith ZArith Bool.
Import ListNotations.
Open Scope N_scope.

(** A byte is an [N]; [is_byte] is the range every Rust u8 satisfies by type. *)
Definition is_byte (b : N) : bool := b <? 256.

(** Number of elements, as an unbounded [N].  usize is not bounded: no buffer or
    collection of 2^64 bytes can exist, so usize arithmetic on lengths never wraps. *)
Definition len {A} (l : list A) : N := N.of_nat (length l).

(** rsomeip-bytes/src/lib.rs 19-23: [LengthField]. *)
Inductive length_field := LF8 | LF16 | LF32.

(** Size in bytes of the integer type read or written for a length field
    (ser.rs 66-85, de.rs 68-74, macros.rs 65-71). *)
Definition lf_size (lf : length_field) : nat :=
  match lf with LF8 => 1%nat | LF16 => 2%nat | LF32 => 4%nat end.

(** [uN::MAX as usize] for the integer type of a length field (ser.rs 70, 76, 82). *)
Definition lf_max (lf : length_field) : N :=
  match lf with LF8 => 255 | LF16 => 65535 | LF32 => 4294967295 end.

(** * Output buffers *)

(** [bytes::BufMut]: the bytes written so far and [remaining_mut()], the room left.
    For BytesMut and Vec the room is close to usize::MAX; for [&mut [u8]] it is the
    length of the slice.  Allocation failure is not modelled. *)
Record wbuf := mkW { w_data : list N; w_room : N }.

(** ser.rs 453-460: [SerializeError].  The text in [Other] is replaced by what it is about. *)
Inductive ser_other := OffsetTooLarge (maximum actual : N).
Inductive ser_error :=
| InvalidLength (required maximum : N)
| SerOther (what : ser_other).

(** [Result<usize, SerializeError>] of a call on [&mut buffer], with the buffer it leaves.
    [WPanic]: the call panicked. *)
Inductive wres :=
| WOk (n : N) (b : wbuf)
| WErr (e : ser_error) (b : wbuf)
| WPanic.

(** [x?] followed by the rest of the function body. *)
Definition wbind (r : wres) (k : N -> wbuf -> wres) : wres :=
  match r with
  | WOk n b => k n b
  | WErr e b => WErr e b
  | WPanic => WPanic
  end.

(** [BufMut::put_slice] of the bytes crate: panics when the room is too small. *)
Definition put_slice (bs : list N) (b : wbuf) : option wbuf :=
  if len bs <=? w_room b
  then Some (mkW (w_data b ++ bs) (w_room b - len bs))
  else None.

(** [uN::to_be_bytes] for a k-byte integer: the most significant byte first. *)
Fixpoint to_be_bytes (k : nat) (v : N) : list N :=
  match k with
  | O => []
  | S k' => N.land (N.shiftr v (8 * N.of_nat k')) 255 :: to_be_bytes k' v
  end.

(** [uN::from_be_bytes]. *)
Definition from_be_bytes (bs : list N) : N :=
  fold_left (fun acc b => N.lor (N.shiftl acc 8) b) bs 0.

(** ser.rs 18-108: the trait [Serialize] as a dictionary of its required methods. *)
Record Serialize (A : Type) := mkSer {
  serialize : A -> wbuf -> wres;
  size_hint : A -> N
}.
Arguments mkSer {A}. Arguments serialize {A}. Arguments size_hint {A}.

(** ser.rs 110-134: [serialize_basic_type!] for the unsigned integer of [k] bytes:
    [BufMut::put_uN] writes the big-endian bytes with [put_slice]; returns [size_of]. *)
Definition ser_uint (k : nat) : Serialize N := {|
  serialize := fun (v : N) b =>
    match put_slice (to_be_bytes k v) b with
    | Some b' => WOk (N.of_nat k) b'
    | None => WPanic
    end;
  size_hint := fun (_ : N) => N.of_nat k
|}.

(** Two's complement representation of a signed integer of [k] bytes ([as uN]). *)
Definition to_twos (k : nat) (z : Z) : N := Z.to_N (z mod 2 ^ (8 * Z.of_nat k)).
Definition of_twos (k : nat) (n : N) : Z :=
  if n <? 2 ^ (8 * N.of_nat k - 1) then Z.of_N n else (Z.of_N n - 2 ^ (8 * Z.of_nat k))%Z.

(** ser.rs 129-132: [serialize_basic_type!] for signed integers ([put_iN]). *)
Definition ser_sint (k : nat) : Serialize Z := {|
  serialize := fun (v : Z) b => serialize (ser_uint k) (to_twos k v) b;
  size_hint := fun (_ : Z) => N.of_nat k
|}.

(** ser.rs 133-134: f32 and f64.  [put_f32] writes [to_bits()]; a float is modelled by its
    bit pattern, so every payload of every NaN is a distinct value here. *)
Definition ser_float (k : nat) : Serialize N := ser_uint k.

(** ser.rs 136-148: [impl Serialize for bool]. *)
Definition ser_bool : Serialize bool := {|
  serialize := fun (v : bool) b => if v then serialize (ser_uint 1) 1 b else serialize (ser_uint 1) 0 b;
  size_hint := fun (_ : bool) => 1
|}.

(** ser.rs 167-173: the loop of [<&[T]>::serialize]. *)
Fixpoint ser_elems {A} (S : Serialize A) (l : list A) (total : N) (b : wbuf) : wres :=
  match l with
  | [] => WOk total b
  | x :: l' => wbind (serialize S x b) (fun n b' => ser_elems S l' (total + n) b')
  end.

(** ser.rs 175-181: the loop of [<&[T]>::size_hint]. *)
Fixpoint hint_elems {A} (S : Serialize A) (l : list A) (total : N) : N :=
  match l with
  | [] => total
  | x :: l' => hint_elems S l' (total + size_hint S x)
  end.

(** ser.rs 163-208: [impl Serialize for &[T]], [Vec<T>] and [[T; N]] (the latter two
    delegate to the first).  [&T] (150-161) delegates to T and needs no model. *)
Definition ser_slice {A} (S : Serialize A) : Serialize (list A) := {|
  serialize := fun (l : list A) b => ser_elems S l 0 b;
  size_hint := fun (l : list A) => hint_elems S l 0
|}.

(** ser.rs 210-244: [serialize_tuple!].  A tuple (A, B, ...) is the nested pair
    (A, (B, ... tt)); the macro adds the sizes left to right from 0. *)
Definition ser_tuple_nil : Serialize unit := {|
  serialize := fun (_ : unit) b => WOk 0 b;
  size_hint := fun (_ : unit) => 0
|}.
Definition ser_tuple_cons {A B} (SA : Serialize A) (SB : Serialize B) : Serialize (A * B) := {|
  serialize := fun (v : A * B) b =>
    wbind (serialize SA (fst v) b) (fun n b1 =>
    wbind (serialize SB (snd v) b1) (fun m b2 => WOk (n + m) b2));
  size_hint := fun (v : A * B) => size_hint SA (fst v) + size_hint SB (snd v)
|}.

(** ser.rs 246-255: [impl Serialize for Bytes]. *)
Definition ser_bytes : Serialize (list N) := {|
  serialize := fun (v : list N) b =>
    match put_slice v b with
    | Some b' => WOk (len v) b'
    | None => WPanic
    end;
  size_hint := fun (v : list N) => len v
|}.

(** ser.rs 61-88: the provided method [Serialize::serialize_len]. *)
Definition serialize_len {A} (S : Serialize A) (lf : length_field) (v : A) (b : wbuf) : wres :=
  if size_hint S v <=? lf_max lf then
    wbind (serialize (ser_uint (lf_size lf)) (size_hint S v) b) (fun n b1 =>
    wbind (serialize S v b1) (fun m b2 => WOk (n + m) b2))
  else WErr (InvalidLength (size_hint S v) (lf_max lf)) b.

(** The pattern of README.md (impl Serialize for Foo), of [serialize_into!] with [length=]
    (macros.rs 32-36) and [size_hint!] with [length=] (macros.rs 63-74): a field written with
    [serialize_len], whose size hint includes the length field. *)
Definition ser_with_len {A} (lf : length_field) (S : Serialize A) : Serialize A := {|
  serialize := fun (v : A) b => serialize_len S lf v b;
  size_hint := fun (v : A) => N.of_nat (lf_size lf) + size_hint S v
|}.

(** * Input buffers *)

(** de.rs 242-254: [DeserializeError].  The text in [Other] is replaced by what it is about. *)
Inductive de_other :=
| BadUtf8Mark (b : N)      (* de.rs 185 *)
| InvalidUtf8              (* de.rs 198 *)
| InvalidUtf16             (* de.rs 218 *)
| InvalidMark (v : N).     (* de.rs 224 *)
Inductive de_error :=
| InsufficientData (expected available : N)
| DeOther (what : de_other).

(** [Result<T, DeserializeError>] of a call on [&mut buffer], with the bytes it leaves unread.
    [DPanic]: the call panicked.  [DHang]: the call has not returned within the fuel. *)
Inductive dres (A : Type) :=
| DOk (v : A) (rest : list N)
| DErr (e : de_error) (rest : list N)
| DPanic
| DHang.
Arguments DOk {A}. Arguments DErr {A}. Arguments DPanic {A}. Arguments DHang {A}.

(** [x?] followed by the rest of the function body. *)
Definition dbind {A B} (r : dres A) (k : A -> list N -> dres B) : dres B :=
  match r with
  | DOk v rest => k v rest
  | DErr e rest => DErr e rest
  | DPanic => DPanic
  | DHang => DHang
  end.

(** [Result::map]. *)
Definition dmap {A B} (f : A -> B) (r : dres A) : dres B := dbind r (fun v rest => DOk (f v) rest).

(** de.rs 18-78: the trait [Deserialize] is its required method. *)
Definition Deserialize (A : Type) := list N -> dres A.

(** [Buf::get_uN] of the bytes crate: panics when fewer than [k] bytes remain. *)
Definition get_uint (k : nat) (buf : list N) : option (N * list N) :=
  if len buf <? N.of_nat k then None
  else Some (from_be_bytes (firstn k buf), skipn k buf).

(** de.rs 80-101: [deserialize_basic_type!] for the unsigned integer of [k] bytes. *)
Definition de_uint (k : nat) : Deserialize N := fun buf =>
  if len buf <? N.of_nat k
  then DErr (InsufficientData (N.of_nat k) (len buf)) buf
  else match get_uint k buf with
       | Some (v, rest) => DOk v rest
       | None => DPanic
       end.

(** de.rs 102-105: signed integers ([get_iN]). *)
Definition de_sint (k : nat) : Deserialize Z := fun buf => dmap (of_twos k) (de_uint k buf).

(** de.rs 106-107: f32 and f64 ([get_f32] reads [from_bits]); modelled by the bit pattern. *)
Definition de_float (k : nat) : Deserialize N := de_uint k.

(** de.rs 109-121: [impl Deserialize for bool]. *)
Definition de_bool : Deserialize bool := fun buf =>
  if len buf <? 1
  then DErr (InsufficientData 1 (len buf)) buf
  else match get_uint 1 buf with
       | Some (v, rest) => DOk (N.land v 1 =? 1) rest
       | None => DPanic
       end.

(** de.rs 123-134: [impl Deserialize for [T; N]]: [N] times
    [T::deserialize(buffer).unwrap_or_default()]. *)
Fixpoint de_array {A} (d : Deserialize A) (default : A) (n : nat) (buf : list N) : dres (list A) :=
  match n with
  | O => DOk [] buf
  | S n' =>
      match d buf with
      | DOk v rest => dmap (cons v) (de_array d default n' rest)
      | DErr _ rest => dmap (cons default) (de_array d default n' rest)
      | DPanic => DPanic
      | DHang => DHang
      end
  end.

(** de.rs 142-148: the loop of [Vec<T>::deserialize], run for at most [fuel] tests of
    [has_remaining]. *)
Fixpoint vec_loop {A} (d : Deserialize A) (fuel : nat) (buf : list N) : dres (list A) :=
  match fuel with
  | O => DHang
  | S fuel' =>
      match buf with
      | [] => DOk [] []
      | _ :: _ => dbind (d buf) (fun v rest => dmap (cons v) (vec_loop d fuel' rest))
      end
  end.

(** de.rs 136-149: [impl Deserialize for Vec<T>].  The fuel is one more than the number of
    bytes; [vec_fuel_enough] (BytesProofs.v) shows that no larger fuel changes the result, so [DHang]
    here means that the loop never ends. *)
Definition de_vec {A} (d : Deserialize A) : Deserialize (list A) := fun buf =>
  vec_loop d (S (length buf)) buf.

(** de.rs 151-175: [deserialize_tuple!]. *)
Definition de_tuple_nil : Deserialize unit := fun buf => DOk tt buf.
Definition de_tuple_cons {A B} (da : Deserialize A) (db : Deserialize B) : Deserialize (A * B) :=
  fun buf => dbind (da buf) (fun a rest => dbind (db rest) (fun b rest' => DOk (a, b) rest')).

(** de.rs 231-237: [impl Deserialize for Bytes]: takes everything that remains. *)
Definition de_bytes : Deserialize (list N) := fun buf => DOk buf [].

(** [Buf::take(limit)] of the bytes crate: the inner decoder sees at most the first [limit]
    bytes, and the outer buffer advances by what the inner decoder consumed. *)
Definition with_take {A} (d : Deserialize A) (limit : N) (buf : list N) : dres A :=
  let inner := firstn (N.to_nat (N.min limit (len buf))) buf in
  let outer := skipn (N.to_nat (N.min limit (len buf))) buf in
  match d inner with
  | DOk v rest => DOk v (rest ++ outer)
  | DErr e rest => DErr e (rest ++ outer)
  | DPanic => DPanic
  | DHang => DHang
  end.

(** de.rs 64-77: the provided method [Deserialize::deserialize_len].  The conversion u32 to
    usize cannot fail on 32 and 64 bit targets. *)
Definition deserialize_len {A} (d : Deserialize A) (lf : length_field) : Deserialize A := fun buf =>
  dbind (de_uint (lf_size lf) buf) (fun length rest => with_take d length rest).
