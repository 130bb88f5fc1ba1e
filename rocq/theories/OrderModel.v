(** Model of the derived orders of the identifiers in rsomeip-proto/src/primitives.rs (the
    [PartialOrd], [Ord] of 134, 402).  Definitions only.

    [#[derive(Ord)]] compares the fields in the order of their declaration; the fields are newtypes
    of [u16] (104, 126, 284, 345) and compare as numbers. *)
From Coq Require Import NArith.
From Verif Require Import PrimitivesModel.
Open Scope N_scope.

(** 134-140: [MessageId::cmp]. *)
Definition mid_cmp (a b : message_id) : comparison :=
  match mid_service a ?= mid_service b with Eq => mid_method a ?= mid_method b | c => c end.

(** 402-408: [RequestId::cmp]. *)
Definition rid_cmp (a b : request_id) : comparison :=
  match rid_client a ?= rid_client b with Eq => rid_session a ?= rid_session b | c => c end.
