(** Specification of shared maps, response channels and macros. *)
From Coq Require Import List NArith ZArith Bool.
From Verif Require Import BytesModel UniverseModel SupportModel.
Import ListNotations.

(** What a map holds under [k] after the given operations, the newest first. *)
Section Entry.
Context {K V : Type} (eq_dec : forall a b : K, {a = b} + {a <> b}).
Definition key_of (o : sm_op K V) : K := match o with SmInsert k _ | SmGet k | SmRemove k => k end.
Fixpoint entry (k : K) (ops : list (sm_op K V)) : option V :=
  match ops with
  | [] => None
  | SmInsert k' v :: before => if eq_dec k' k then Some v else entry k before
  | SmGet _ :: before => entry k before
  | SmRemove k' :: before => if eq_dec k' k then None else entry k before
  end.

(** Operation [j] copied a value whose [clone] panics. *)
Definition panicking_get (clone : V -> option V) (ops : list (sm_op K V)) (j : nat) : Prop :=
  exists k v, nth_error ops j = Some (SmGet k) /\ entry k (rev (firstn j ops)) = Some v /\ clone v = None.
End Entry.

(** A tuple of one is what [deserialize_from!] gives without the tuple. *)
Definition untuple (ts : list ty) : value (TTuple ts) -> value (from_ty ts) :=
  match ts return value (TTuple ts) -> value (from_ty ts) with
  | [] => fun v => v
  | [t] => fun v => fst v
  | _ :: _ :: _ => fun v => v
  end.
