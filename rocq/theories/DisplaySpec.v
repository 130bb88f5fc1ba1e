(** Specification of printed numbers: a numeral and the number it denotes, written without
    reference to how digits are produced. *)
From Coq Require Import List NArith Bool Ascii String.
Import ListNotations.
Open Scope N_scope.

(** The value of a digit: 0-9, then a-f in lower case. *)
Definition digit_value (c : ascii) : option N :=
  let n := N_of_ascii c in
  if (48 <=? n) && (n <=? 57) then Some (n - 48)
  else if (97 <=? n) && (n <=? 102) then Some (n - 87) else None.

(** [denotes base s v]: [s] is a numeral in that base, most significant digit first, of value [v]. *)
Inductive denotes (base : N) : string -> N -> Prop :=
| denotes_nil : denotes base EmptyString 0
| denotes_digit c s d v : digit_value c = Some d -> d < base -> denotes base s v ->
    denotes base (String c s) (d * base ^ N.of_nat (String.length s) + v).

(** A numeral of a given number of digits. *)
Definition numeral (base : N) (width : nat) (s : string) (v : N) : Prop :=
  String.length s = width /\ denotes base s v.

(** The parts of a printed form: strings with a dot between each two. *)
Fixpoint dotted (l : list string) : string :=
  match l with
  | [] => EmptyString
  | [s] => s
  | s :: l => (s ++ "." ++ dotted l)%string
  end.
