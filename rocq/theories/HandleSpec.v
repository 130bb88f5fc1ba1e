(** What the claims about the handles of an endpoint mean. *)
From Coq Require Import List NArith Bool PeanoNat.
From Verif Require Import BytesModel RuntimeModel.
Import ListNotations.
Open Scope nat_scope.

(** A caller has an [Endpoint]: not all were dropped since one was last upgraded to. *)
Definition held (tr : list (event * obs)) : bool :=
  fold_left (fun b p => match p with (EClose, _) => false | (EUpgrade, OUnit) => true | _ => b end) tr true.
(** Stub [n] is opening a connection for a [send_to]. *)
Definition stub_connecting (s : rt) (n : nat) : Prop :=
  exists t a m, nth_error (r_stubs s) n = Some t /\ st_alive t = true /\ (st_pc t = SConnect a m \/ exists c, st_pc t = SShare a c m).
(** What takes an [Endpoint] that a caller has. *)
Definition of_endpoint (e : event) : Prop :=
  match e with EServe _ | EProxy _ _ | EAbandon _ _ | EClose => True | _ => False end.
