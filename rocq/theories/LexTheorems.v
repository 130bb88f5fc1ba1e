(** Lists of numbers of one length, compared from the front: there is no infinite descent. *)
From Coq Require Import List Arith Wf_nat.
Import ListNotations.

Fixpoint lex (l m : list nat) : Prop :=
  match l, m with x :: l', y :: m' => x < y \/ (x = y /\ lex l' m') | _, _ => False end.
Definition lexl (l m : list nat) : Prop := length l = length m /\ lex l m.
Lemma lex_acc n : forall l, length l = n -> Acc lexl l.
Proof.
  induction n as [|n IHn]; intros [|x l] L; try discriminate L; [constructor; intros [|? ?] [_ []]|]. cbn in L. injection L as L.
  revert l L. induction x as [x IHx] using lt_wf_ind. intros l L. pose proof (IHn l L) as A. revert L. induction A as [l A IHl]. intros L.
  constructor. intros [|y m] [E P]; [destruct P|]. cbn in E, P. injection E as E. rewrite L in E.
  destruct P as [P|[-> P]]; [apply IHx; assumption|apply IHl; [|exact E]]. split; [congruence|exact P].
Qed.
Lemma lex_wf : well_founded lexl.
Proof. intros l. eapply lex_acc. reflexivity. Qed.
Lemma lex_irrefl l : ~ lex l l.
Proof. induction l as [|x l IH]; [intros []|]. intros [L|[_ L]]; [exact (Nat.lt_irrefl _ L)|exact (IH L)]. Qed.
