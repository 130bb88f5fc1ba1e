(** What is expected of a TCP connection. *)
From Coq Require Import List NArith PeanoNat Bool.
From Verif Require Import TcpModel.
Import ListNotations.

Definition prefix (a b : list N) : Prop := exists c, b = a ++ c.
Definition strict_prefix (a b : list N) : Prop := exists c, c <> [] /\ b = a ++ c.

(** What the peer sent before it closed its side. *)
Fixpoint arrived (es : list tev) : list N :=
  match es with
  | [] => []
  | TArrive data :: es' => data ++ arrived es'
  | TFin :: _ => []
  | TRecv _ :: es' => arrived es'
  end.

(** The bytes handed out by the calls of [recv]. *)
Fixpoint got (rs : list rres) : list N :=
  match rs with
  | [] => []
  | ROk data :: rs' => data ++ got rs'
  | _ :: rs' => got rs'
  end.

(** A round in which the operating system takes or gives at least a byte. *)
Definition useful (r : round) : Prop := exists n, r = (Ready, Some n) /\ 0 < n.
(** A round without an error of the write or the read. *)
Definition faultless (r : round) : Prop := fst r = NotReady \/ (fst r = Ready /\ snd r <> None).
