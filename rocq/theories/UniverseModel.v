(** The types supported by rsomeip-bytes, as a closed universe: every type that can be built
    from the impls of [Serialize] / [Deserialize] in ser.rs and de.rs, from strings in each of
    their encodings and from the length-prefixed field pattern of README.md.  Definitions only. *)
From Coq Require Import List NArith ZArith Bool.
From Verif Require Import BytesModel StringModel.
Import ListNotations.
Open Scope N_scope.

(** Sizes of the integer types: u8/i8, u16/i16, u32/i32, u64/i64 (ser.rs 125-132). *)
Inductive isize := B1 | B2 | B4 | B8.
Definition isize_bytes (s : isize) : nat :=
  match s with B1 => 1 | B2 => 2 | B4 => 4 | B8 => 8 end%nat.

(** f32, f64 (ser.rs 133-134). *)
Inductive fsize := F4 | F8.
Definition fsize_bytes (s : fsize) : nat := match s with F4 => 4 | F8 => 8 end%nat.

(** The encodings of [SerializeString] (ser.rs 257-358). *)
Inductive text_enc := Utf8 | Utf16 (e : endianness).

Inductive ty :=
| TUInt (s : isize)
| TSInt (s : isize)
| TFloat (s : fsize)
| TBool
| TBytes
| TString (e : text_enc)
| TArray (t : ty) (n : nat)
| TVec (t : ty)
| TTuple (ts : list ty)
| TLen (lf : length_field) (t : ty).

(** The values of a type.  A float is its bit pattern; a string is the list of its characters; an array is the list of its elements
    ([valid] fixes its length); a tuple is a nested pair. *)
Fixpoint value (t : ty) : Type :=
  match t with
  | TUInt _ => N
  | TSInt _ => Z
  | TFloat _ => N
  | TBool => bool
  | TBytes => list N
  | TString _ => list N
  | TArray t' _ => list (value t')
  | TVec t' => list (value t')
  | TTuple ts =>
      (fix go (ts : list ty) : Type :=
         match ts with
         | [] => unit
         | t' :: ts' => (value t' * go ts')%type
         end) ts
  | TLen _ t' => value t'
  end.

(** The values a Rust variable of the type can hold. *)
Fixpoint valid (t : ty) : value t -> bool :=
  match t with
  | TUInt s => fun v => v <? 2 ^ (8 * N.of_nat (isize_bytes s))
  | TSInt s => fun v =>
      ((- 2 ^ (8 * Z.of_nat (isize_bytes s) - 1) <=? v) &&
       (v <? 2 ^ (8 * Z.of_nat (isize_bytes s) - 1)))%Z
  | TFloat s => fun v => v <? 2 ^ (8 * N.of_nat (fsize_bytes s))
  | TBool => fun _ => true
  | TBytes => fun v => forallb is_byte v
  | TString _ => fun v => forallb is_char v
  | TArray t' n => fun v => Nat.eqb (length v) n && forallb (valid t') v
  | TVec t' => fun v => forallb (valid t') v
  | TTuple ts =>
      (fix go (ts : list ty) : value (TTuple ts) -> bool :=
         match ts return value (TTuple ts) -> bool with
         | [] => fun _ => true
         | t' :: ts' => fun v => valid t' (fst v) && go ts' (snd v)
         end) ts
  | TLen _ t' => fun v => valid t' v
  end.

(** [Default::default()] of each type, as used by [[T; N]::deserialize] (de.rs 131). *)
Fixpoint default (t : ty) : value t :=
  match t with
  | TUInt _ => 0
  | TSInt _ => 0%Z
  | TFloat _ => 0
  | TBool => false
  | TBytes => []
  | TString _ => []
  | TArray t' n => repeat (default t') n
  | TVec _ => []
  | TTuple ts =>
      (fix go (ts : list ty) : value (TTuple ts) :=
         match ts return value (TTuple ts) with
         | [] => tt
         | t' :: ts' => (default t', go ts')
         end) ts
  | TLen _ t' => default t'
  end.

(** A string written with [serialize_utf8], [serialize_utf16_be] or [serialize_utf16_le]
    (ser.rs 359-404).  There is no impl of [Serialize] for strings: the size hint is the one of
    the data these functions pass to [serialize] or [serialize_len], so that
    [serialize_len (ser_text e)] is the function with a length field. *)
Definition ser_text (e : text_enc) : Serialize (list N) := {|
  serialize := fun (s : list N) b =>
    match e with
    | Utf8 => serialize_utf8 s None b
    | Utf16 o => serialize_utf16 o s None b
    end;
  size_hint := fun (s : list N) =>
    match e with
    | Utf8 => size_hint ser_utf8_tuple ([0xEF; 0xBB; 0xBF], (as_bytes s, (0, tt)))
    | Utf16 o => size_hint (ser_utf16 o) s
    end
|}.

(** The impl of [Serialize] selected for each type (ser.rs 110-255). *)
Fixpoint ser (t : ty) : Serialize (value t) :=
  match t with
  | TUInt s => ser_uint (isize_bytes s)
  | TSInt s => ser_sint (isize_bytes s)
  | TFloat s => ser_float (fsize_bytes s)
  | TBool => ser_bool
  | TBytes => ser_bytes
  | TString e => ser_text e
  | TArray t' _ => ser_slice (ser t')
  | TVec t' => ser_slice (ser t')
  | TTuple ts =>
      (fix go (ts : list ty) : Serialize (value (TTuple ts)) :=
         match ts return Serialize (value (TTuple ts)) with
         | [] => ser_tuple_nil
         | t' :: ts' => ser_tuple_cons (ser t') (go ts')
         end) ts
  | TLen lf t' => ser_with_len lf (ser t')
  end.

(** The impl of [Deserialize] selected for each type (de.rs 80-237).  [String] is read as on a
    little-endian host; StringModel.v has both. *)
Fixpoint de (t : ty) : Deserialize (value t) :=
  match t with
  | TUInt s => de_uint (isize_bytes s)
  | TSInt s => de_sint (isize_bytes s)
  | TFloat s => de_float (fsize_bytes s)
  | TBool => de_bool
  | TBytes => de_bytes
  | TString _ => de_string Little
  | TArray t' n => de_array (de t') (default t') n
  | TVec t' => de_vec (de t')
  | TTuple ts =>
      (fix go (ts : list ty) : Deserialize (value (TTuple ts)) :=
         match ts return Deserialize (value (TTuple ts)) with
         | [] => de_tuple_nil
         | t' :: ts' => de_tuple_cons (de t') (go ts')
         end) ts
  | TLen lf t' => deserialize_len (de t') lf
  end.
