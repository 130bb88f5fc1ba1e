(** The derived orders of the identifiers. *)
From Coq Require Import NArith Lia.
From Verif Require Import PrimitivesModel PrimitivesProofs OrderModel.
Open Scope N_scope.

Lemma pair_cmp a b c d : b < 65536 -> d < 65536 ->
  match a ?= c with Eq => b ?= d | x => x end = (a * 65536 + b ?= c * 65536 + d).
Proof.
  intros B D. symmetry. destruct (N.compare_spec a c) as [->|L|L].
  - destruct (N.compare_spec b d) as [->|K|K]; [apply N.compare_eq_iff|apply N.compare_lt_iff|apply N.compare_gt_iff]; lia.
  - apply N.compare_lt_iff. lia.
  - apply N.compare_gt_iff. lia.
Qed.
Lemma mid_order a b : mid_method a < 65536 -> mid_method b < 65536 -> mid_cmp a b = (mid_as_u32 a ?= mid_as_u32 b).
Proof. intros A B. unfold mid_cmp. rewrite !mid_value by assumption. apply pair_cmp; assumption. Qed.
Lemma rid_order a b : rid_session a < 65536 -> rid_session b < 65536 -> rid_cmp a b = (rid_as_u32 a ?= rid_as_u32 b).
Proof. intros A B. unfold rid_cmp. rewrite !rid_value by assumption. apply pair_cmp; assumption. Qed.
