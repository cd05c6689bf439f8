(** What the capacitors made from a matrix should be.  Numbers are real here; nothing of the code but the type of its data is used. *)
From Coq Require Import Reals List Bool.
From Flocq Require Import Core.Core IEEE754.BinarySingleNaN.
From Verif Require Import FP_Model MF_Model.
Import ListNotations.
Local Open Scope R_scope.

(** the number a float stands for, and whether it stands for one *)
Definition value (x : float) : R := B2R x.
Definition number (x : float) : Prop := is_finite x = true.
(** 2^-53, half the distance from 1 to the next float *)
Definition half_ulp : R := / 2 ^ 53.

Fixpoint total {A} (f : A -> R) (l : list A) : R := match l with [] => 0 | x :: t => f x + total f t end.

(** an n by n matrix of numbers *)
Definition cell (m : matrix) (i j : nat) : float := nth j (nth i (rows m) []) (B754_zero false).
Definition entry (m : matrix) (i j : nat) : R := value (cell m i j).
Definition square (n : nat) (m : matrix) : Prop :=
  List.length (names m) = n /\ List.length (rows m) = n /\ Forall (fun r => List.length r = n) (rows m).
Definition numbers (n : nat) (m : matrix) : Prop := forall i j, (i < n)%nat -> (j < n)%nat -> number (cell m i j).
Definition symmetric (n : nat) (m : matrix) : Prop := forall i j, (i < n)%nat -> (j < n)%nat -> entry m i j = entry m j i.
Definition row_sum (n : nat) (m : matrix) (i : nat) : R := total (entry m i) (seq 0 n).
Definition row_size (n : nat) (m : matrix) (i : nat) : R := total (fun j => Rabs (entry m i j)) (seq 0 n).
(** no sum leaves the range of floats *)
Definition moderate (n : nat) (m : matrix) : Prop :=
  numbers n m /\ INR n <= 10 ^ 12 /\ forall i j, (i < n)%nat -> (j < n)%nat -> Rabs (entry m i j) <= 10 ^ 270.

(** the capacitance of the capacitors with these two indices *)
Definition between (l : list capacitor) (i j : nat) : R :=
  total (fun c => if Nat.eqb (cap_i c) i && Nat.eqb (cap_j c) j then value (farad c) else 0) l.
(** the nets at the two ends of a capacitor: with equal indices it goes to net 0 *)
Definition ends (c : capacitor) : nat * nat := (cap_i c, if Nat.eqb (cap_i c) (cap_j c) then 0%nat else cap_j c).
(** the charge on net k if the nets have the voltages v *)
Definition charge (l : list capacitor) (v : nat -> R) (k : nat) : R :=
  total (fun c => let (a, b) := ends c in
    (if Nat.eqb a k then value (farad c) * (v a - v b) else 0) + (if Nat.eqb b k then value (farad c) * (v b - v a) else 0)) l.
