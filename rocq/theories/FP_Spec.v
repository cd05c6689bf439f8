(** What conversions to grid units have to give in spite of rounding: C91. *)
From Coq Require Import ZArith Reals.
From Flocq Require Import IEEE754.BinarySingleNaN.
From Verif Require Import FP_Model.
Local Open Scope R_scope.

(** a number that is written as n / d, with less than 16 digits above and below *)
Definition short (n d : Z) : Prop := (Z.abs n < 2 ^ 53 /\ 0 < d < 2 ^ 53)%Z.
(** the exact value of a height, the sum of its terms without their signs, and their number *)
Fixpoint exact (h : height) : R :=
  match h with Num n d => IZR n / IZR d | Sum a b => exact a + exact b | Diff a b => exact a - exact b end.
Fixpoint size (h : height) : R := match h with Num n d => Rabs (IZR n / IZR d) | Sum a b | Diff a b => size a + size b end.
Fixpoint terms (h : height) : nat := match h with Num _ _ => 1%nat | Sum a b | Diff a b => (terms a + terms b)%nat end.
Fixpoint written (h : height) : Prop := match h with Num n d => short n d | Sum a b | Diff a b => written a /\ written b end.
(** The unit n / d is positive; the height has at most twelve terms and stays below 67 million units (67 mm if the unit is 1 nm). *)
Definition usual (n d : Z) (h : height) : Prop :=
  (0 < n)%Z /\ short n d /\ written h /\ (terms h <= 12)%nat /\ size h <= 67108864 * (IZR n / IZR d).
(** the value of a float *)
Notation val := (@B2R prec emax).
