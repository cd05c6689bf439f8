(** Linear/non-linear arithmetic for canonical rationals by transfer to Q. *)
From Coq Require Import Lqa.
From Verif Require Import PyBase.

Lemma this_plus (a b : Qc) : (this (a + b)%Qc == this a + this b)%Q.
Proof. exact (Qred_correct _). Qed.
Lemma this_mult (a b : Qc) : (this (a * b)%Qc == this a * this b)%Q.
Proof. exact (Qred_correct _). Qed.
Lemma this_opp (a : Qc) : (this (- a)%Qc == - this a)%Q.
Proof. exact (Qred_correct _). Qed.
Lemma this_minus (a b : Qc) : (this (a - b)%Qc == this a - this b)%Q.
Proof. unfold Qcminus. rewrite this_plus, this_opp. reflexivity. Qed.
Lemma this_Q2Qc q : (this (Q2Qc q) == q)%Q.
Proof. exact (Qred_correct _). Qed.
Lemma Qc_eq_this (a b : Qc) : a = b -> (this a == this b)%Q.
Proof. intros ->; reflexivity. Qed.
Lemma Qcle_this (a b : Qc) : (a <= b)%Qc -> (this a <= this b)%Q.
Proof. exact (fun H => H). Qed.
Lemma Qclt_this (a b : Qc) : (a < b)%Qc -> (this a < this b)%Q.
Proof. exact (fun H => H). Qed.
Lemma Qcnle_this (a b : Qc) : ~ (a <= b)%Qc -> (this b < this a)%Q.
Proof. intros H. apply Qcnot_le_lt in H. exact H. Qed.
Lemma Qcnlt_this (a b : Qc) : ~ (a < b)%Qc -> (this b <= this a)%Q.
Proof. intros H. apply Qcnot_lt_le in H. exact H. Qed.

Ltac qc_one H := repeat first
  [rewrite this_plus in H | rewrite this_minus in H | rewrite this_mult in H | rewrite this_opp in H | rewrite this_Q2Qc in H].
Ltac qc_hyps := repeat match goal with
  | H : @eq Qc _ _ |- _ => apply Qc_eq_this in H; qc_one H
  | H : Qcle _ _ |- _ => apply Qcle_this in H; qc_one H
  | H : Qclt _ _ |- _ => apply Qclt_this in H; qc_one H
  | H : ~ Qcle _ _ |- _ => apply Qcnle_this in H; qc_one H
  | H : ~ Qclt _ _ |- _ => apply Qcnlt_this in H; qc_one H
  end.
Ltac qc_goal := match goal with
  | |- @eq Qc _ _ => apply Qc_is_canon
  | |- Qcle _ _ => unfold Qcle
  | |- Qclt _ _ => unfold Qclt
  | |- _ => idtac
  end; repeat first
  [rewrite this_plus | rewrite this_minus | rewrite this_mult | rewrite this_opp | rewrite this_Q2Qc].
Ltac qc_prep := qc_hyps; qc_goal.
(** decision procedures on Qc goals *)
Ltac qclra := qc_prep; lra.
Ltac qcnra := qc_prep; nra.

Local Open Scope Qc_scope.
Lemma qclra_test : forall a b : Qc, 0 <= a -> a < b -> 0 < Q2Qc 2 * b + Q2Qc 3 * a - Q2Qc (1#2) * a.
Proof. intros. qclra. Qed.

(** closed (dis)equalities of rationals *)
Ltac qceq := apply Qc_is_canon; vm_compute; reflexivity.
Ltac qcneq := let E := fresh in intros E; apply (f_equal this) in E; vm_compute in E; discriminate E.
