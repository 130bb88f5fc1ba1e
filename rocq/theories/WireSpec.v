(** Specification of the SOME/IP on-wire format of the types of the universe, written without
    reference to the serializer or the deserializer. *)
From Coq Require Import List NArith ZArith Bool.
From Verif Require Import BytesModel StringModel UniverseModel StringSpec.
Import ListNotations.
Open Scope N_scope.

(** Every element is a byte. *)
Definition bytes_ok (bs : list N) : Prop := Forall (fun b => b < 256) bs.

(** The [k]-byte big-endian form of [v]: byte [i] has weight 256^(k-1-i). *)
Definition be (k : nat) (v : N) : list N :=
  map (fun i => (v / 256 ^ N.of_nat (k - 1 - i)) mod 256) (seq 0 k).

(** The number a big-endian byte string denotes. *)
Fixpoint be_value (bs : list N) : N :=
  match bs with
  | [] => 0
  | b :: bs' => b * 256 ^ len bs' + be_value bs'
  end.

(** All of the pieces, one after the other, if all of them exist. *)
Fixpoint concat_all (l : list (option (list N))) : option (list N) :=
  match l with
  | [] => Some []
  | o :: l' =>
      match o, concat_all l' with
      | Some a, Some b => Some (a ++ b)
      | _, _ => None
      end
  end.

(** A payload behind a length field of [k] bytes holding the payload's length in bytes;
    there is no such form when the length does not fit in [k] bytes. *)
Definition length_prefixed (k : nat) (payload : list N) : option (list N) :=
  if len payload <? 256 ^ N.of_nat k then Some (be k (len payload) ++ payload) else None.

(** The wire form of a string in each encoding. *)
Definition text_form (e : text_enc) (s : list N) : list N :=
  match e with
  | Utf8 => text_utf8 s
  | Utf16 Big => text_utf16_be s
  | Utf16 Little => text_utf16_le s
  end.

(** The wire form of a value; [None] when some length field in it is too small. *)
Fixpoint wire (t : ty) : value t -> option (list N) :=
  match t with
  | TUInt s => fun v => Some (be (isize_bytes s) v)
  | TSInt s => fun v => Some (be (isize_bytes s) (Z.to_N (v mod 2 ^ (8 * Z.of_nat (isize_bytes s)))))
  | TFloat s => fun v => Some (be (fsize_bytes s) v)
  | TBool => fun v => Some [if v then 1 else 0]
  | TBytes => fun v => Some v
  | TString e => fun v => Some (text_form e v)
  | TArray t' _ => fun v => concat_all (map (wire t') v)
  | TVec t' => fun v => concat_all (map (wire t') v)
  | TTuple ts =>
      (fix go (ts : list ty) : value (TTuple ts) -> option (list N) :=
         match ts return value (TTuple ts) -> option (list N) with
         | [] => fun _ => Some []
         | t' :: ts' => fun v => concat_all [wire t' (fst v); go ts' (snd v)]
         end) ts
  | TLen lf t' => fun v =>
      match wire t' v with
      | Some payload => length_prefixed (lf_size lf) payload
      | None => None
      end
  end.

(** No string in the value contains U+0000, which ends a string on the wire. *)
Fixpoint nul_free (t : ty) : value t -> bool :=
  match t with
  | TUInt _ | TSInt _ | TFloat _ | TBool | TBytes => fun _ => true
  | TString _ => fun v => forallb (fun c => negb (c =? 0)) v
  | TArray t' _ => fun v => forallb (nul_free t') v
  | TVec t' => fun v => forallb (nul_free t') v
  | TTuple ts =>
      (fix go (ts : list ty) : value (TTuple ts) -> bool :=
         match ts return value (TTuple ts) -> bool with
         | [] => fun _ => true
         | t' :: ts' => fun v => nul_free t' (fst v) && go ts' (snd v)
         end) ts
  | TLen _ t' => fun v => nul_free t' v
  end.

(** The smallest number of bytes a value of the type can occupy. *)
Fixpoint min_size (t : ty) : N :=
  match t with
  | TUInt s => N.of_nat (isize_bytes s)
  | TSInt s => N.of_nat (isize_bytes s)
  | TFloat s => N.of_nat (fsize_bytes s)
  | TBool => 1
  | TBytes => 0
  | TString _ => 4
  | TArray t' n => N.of_nat n * min_size t'
  | TVec _ => 0
  | TTuple ts => fold_right (fun t' acc => min_size t' + acc) 0 ts
  | TLen lf t' => N.of_nat (lf_size lf) + min_size t'
  end.

(** [framed t]: the end of a value can be told from the end of the surrounding frame.
    [delimited t]: it can be told from the value's own bytes.
    A Vec or Bytes extends to the end of its frame, so it may only come last, and the elements
    of a Vec must be delimited and never empty. *)
Fixpoint framed (t : ty) : bool :=
  match t with
  | TUInt _ | TSInt _ | TFloat _ | TBool | TBytes | TString _ => true
  | TArray t' n =>
      match n with
      | O => true
      | S O => framed t'
      | _ => delimited t'
      end
  | TVec t' => delimited t' && (0 <? min_size t')
  | TTuple ts =>
      (fix go (ts : list ty) : bool :=
         match ts with
         | [] => true
         | [t'] => framed t'
         | t' :: ts' => delimited t' && go ts'
         end) ts
  | TLen _ t' => framed t'
  end
with delimited (t : ty) : bool :=
  match t with
  | TUInt _ | TSInt _ | TFloat _ | TBool | TString _ => true
  | TBytes | TVec _ => false
  | TArray t' n => match n with O => true | _ => delimited t' end
  | TTuple ts => forallb delimited ts
  | TLen _ t' => framed t'
  end.

(** Types all of whose values occupy the same number of bytes, and that number. *)
Fixpoint fixed_size (t : ty) : option N :=
  match t with
  | TUInt s => Some (N.of_nat (isize_bytes s))
  | TSInt s => Some (N.of_nat (isize_bytes s))
  | TFloat s => Some (N.of_nat (fsize_bytes s))
  | TBool => Some 1
  | TBytes | TString _ | TVec _ | TLen _ _ => None
  | TArray t' n => match fixed_size t' with Some k => Some (N.of_nat n * k) | None => None end
  | TTuple ts =>
      fold_right (fun t' acc => match fixed_size t', acc with
                                | Some a, Some b => Some (a + b)
                                | _, _ => None
                                end) (Some 0) ts
  end.

(** Types built without bool, strings, arrays and length fields. *)
Fixpoint strict (t : ty) : bool :=
  match t with
  | TUInt _ | TSInt _ | TFloat _ | TBytes => true
  | TBool | TString _ | TArray _ _ | TLen _ _ => false
  | TVec t' => strict t'
  | TTuple ts => forallb strict ts
  end.

(** Types without fixed arrays (which replace decoding errors by default values). *)
Fixpoint array_free (t : ty) : bool :=
  match t with
  | TUInt _ | TSInt _ | TFloat _ | TBool | TBytes | TString _ => true
  | TArray _ _ => false
  | TVec t' | TLen _ t' => array_free t'
  | TTuple ts => forallb array_free ts
  end.

(** [eats_always t]: on a non-empty buffer, decoding consumes at least one byte even when it
    fails.  [eats_on_success t]: on a non-empty buffer, a successful decode consumes at least
    one byte. *)
Fixpoint eats_always (t : ty) : bool :=
  match t with
  | TUInt s | TSInt s => match s with B1 => true | _ => false end
  | TFloat _ | TString _ => false
  | TBool | TBytes => true
  | TArray t' n => match n with O => false | S _ => eats_always t' end
  | TVec t' => eats_always t'
  | TTuple ts => match ts with [] => false | t' :: _ => eats_always t' end
  | TLen lf _ => match lf with LF8 => true | _ => false end
  end.
Fixpoint eats_on_success (t : ty) : bool :=
  match t with
  | TUInt _ | TSInt _ | TFloat _ | TBool | TBytes | TString _ | TVec _ | TLen _ _ => true
  | TArray t' n => match n with O => false | S _ => eats_always t' end
  | TTuple ts => existsb eats_on_success ts
  end.

(** Types in which the elements of every Vec consume input whenever they succeed. *)
Fixpoint terminating (t : ty) : bool :=
  match t with
  | TUInt _ | TSInt _ | TFloat _ | TBool | TBytes | TString _ => true
  | TArray t' _ | TLen _ t' => terminating t'
  | TVec t' => terminating t' && eats_on_success t'
  | TTuple ts => forallb terminating ts
  end.

(** The basic types and their sizes. *)
Definition basic_size (t : ty) : option nat :=
  match t with
  | TUInt s | TSInt s => Some (isize_bytes s)
  | TFloat s => Some (fsize_bytes s)
  | TBool => Some 1%nat
  | _ => None
  end.

(** The buffers on which the loop of [Vec<T>::deserialize] does not end: after some successful
    element decodes, an element decode on a non-empty buffer hangs or consumes nothing. *)
Inductive loops {A} (d : Deserialize A) : list N -> Prop :=
| loops_stall buf v : buf <> [] -> d buf = DOk v buf -> loops d buf
| loops_hang buf : buf <> [] -> d buf = DHang -> loops d buf
| loops_later buf v rest : buf <> [] -> d buf = DOk v rest -> loops d rest -> loops d buf.
