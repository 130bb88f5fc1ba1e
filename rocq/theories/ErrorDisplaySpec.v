(** Specification of the numbers in the text of an error, beyond DisplaySpec: numerals whose digits
    above nine are in upper case. *)
From Coq Require Import List NArith Bool Ascii String.
From Verif Require Import BytesModel MessageModel EndpointModel MessageSpec DisplaySpec.
Import ListNotations.
Open Scope N_scope.

(** The value of a digit: 0-9, then A-F in upper case. *)
Definition upper_digit_value (c : ascii) : option N :=
  let n := N_of_ascii c in
  if (48 <=? n) && (n <=? 57) then Some (n - 48)
  else if (65 <=? n) && (n <=? 70) then Some (n - 55) else None.

(** [upper_hex s v]: [s] is a hexadecimal numeral, most significant digit first, of value [v]. *)
Inductive upper_hex : string -> N -> Prop :=
| upper_nil : upper_hex EmptyString 0
| upper_digit c s d v : upper_digit_value c = Some d -> upper_hex s v ->
    upper_hex (String c s) (d * 16 ^ N.of_nat (String.length s) + v).

(** A decimal number as it is printed: a numeral without leading zeros. *)
Definition decimal (s : string) (v : N) : Prop :=
  denotes 10 s v /\ (s = "0"%string \/ exists c r d, s = String c r /\ digit_value c = Some d /\ d <> 0).

(** The byte that an error is about is a byte, the byte order mark a u16, the message a message. *)
Definition de_error_ok (e : de_error) : Prop :=
  match e with DeOther (BadUtf8Mark b) => b < 2 ^ 8 | DeOther (InvalidMark v) => v < 2 ^ 16 | _ => True end.

Definition endpoint_error_ok {B} (e : endpoint_error B) : Prop :=
  match e with InvalidData e => de_error_ok e | InvalidInput _ => True | InvalidMessage m _ | MessageDropped m _ => message_ok m end.
