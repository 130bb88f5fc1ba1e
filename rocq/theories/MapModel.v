(** Model of the part of [std::collections::HashMap] the code uses.  A map is the list of its
    entries, one per key; iteration order is never observed by the modelled code.  [eqb] is the
    key's [Eq] ([Hash] agrees with it: both are derived). *)
From Coq Require Import List Bool.
Import ListNotations.

Section Map.
Context {K V : Type} (eqb : K -> K -> bool).

(** [HashMap::get] (also [contains_key] and, for reading, [get_mut]). *)
Fixpoint map_get (k : K) (m : list (K * V)) : option V :=
  match m with
  | [] => None
  | (k', v) :: m' => if eqb k k' then Some v else map_get k m'
  end.

(** What [HashMap::remove] leaves; it returns [map_get k m]. *)
Definition map_remove (k : K) (m : list (K * V)) : list (K * V) :=
  filter (fun e => negb (eqb k (fst e))) m.

(** What [HashMap::insert] leaves; it returns [map_get k m]. *)
Definition map_insert (k : K) (v : V) (m : list (K * V)) : list (K * V) := (k, v) :: map_remove k m.

(** A write [f] through the reference [HashMap::get_mut] returned, if it returned one. *)
Definition map_update (k : K) (f : V -> V) (m : list (K * V)) : list (K * V) :=
  map (fun e => if eqb k (fst e) then (fst e, f (snd e)) else e) m.
End Map.
