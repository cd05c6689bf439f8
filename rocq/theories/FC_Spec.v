(** What rounding errors may do to capacitances: C92. *)
From Coq Require Import ZArith Reals List Bool.
From Flocq Require Import IEEE754.BinarySingleNaN.
From Verif Require Import FP_Model FP_Spec FC_Model.
Import ListNotations.
Local Open Scope R_scope.

(** one half of the distance of 1 from the next float, 2 ^ -53 *)
Definition half_ulp : R := / 9007199254740992.
(** a function of the C library that is off by less than one unit in the last place, for arguments that are 0 or neither tiny nor huge *)
Definition accurate (f : float -> float) (F : R -> R) : Prop :=
  forall x, is_finite x = true -> val x = 0 \/ / 10 ^ 60 <= val x <= 10 ^ 60 ->
    is_finite (f x) = true /\ Rabs (val (f x) - F (val x)) <= 2 * half_ulp * Rabs (F (val x)).

(** A decimal number of the technology, n / d *)
Record num := Dec { numer : Z; denom : Z }.
Definition num_val (x : num) : R := IZR (numer x) / IZR (denom x).
Definition num_float (x : num) : float := lit (numer x) (denom x).
Definition positive (x : num) : Prop := (0 < numer x)%Z /\ short (numer x) (denom x).
(** a number of grid units or squares *)
Definition count (n : Z) : Prop := (0 < n < 2 ^ 53)%Z.

(** A contribution to the capacitance of two nets, with its dimensions in units and its numbers of the technology:
    an overlap, a sidewall or a fringe (with its length, and from where to where it reaches) *)
Inductive piece :=
  | Overlap (area : Z) (c : num)
  | Sidewall (length distance : Z) (c offset : num)
  | Fringe (length near far : Z) (overlap_c side_c : num).
Record setting := Setting { unit : num; halo : num; fit_halo : bool }.
Definition meant (s : setting) (p : piece) : Prop :=
  positive (unit s) /\ positive (halo s) /\
  match p with
  | Overlap area c => (0 <= area < 2 ^ 53)%Z /\ positive c
  | Sidewall l d c o => count l /\ (0 <= d < 2 ^ 53)%Z /\ positive c /\ (0 <= numer o)%Z /\ short (numer o) (denom o) /\ (0 < d \/ 0 < numer o)%Z
  | Fringe l n f oc sc => count l /\ (0 <= n < f)%Z /\ (f < 2 ^ 53)%Z /\ positive oc /\ positive sc
  end.

(** ** The formulas, in femtofarads, with the capacitances of the technology in attofarads *)
Definition fraction (oc x : R) : R := 2 / PI * atan (2 / 100 * oc * x).
Definition fringe_fraction (s : setting) (oc x : R) : R :=
  fraction oc x / (if fit_halo s then fraction oc (num_val (halo s)) else 1).
Definition formula (s : setting) (p : piece) : R :=
  let um n := IZR n * num_val (unit s) in
  match p with
  | Overlap area c => IZR area * (num_val (unit s) * num_val (unit s)) * num_val c / 1000
  | Sidewall l d c o => um l * num_val c / (um d + num_val o) / 2 / 1000
  | Fringe l n f oc sc => (fringe_fraction s (num_val oc) (um f) - fringe_fraction s (num_val oc) (um n)) * um l * num_val sc / 1000
  end.
(** what the errors are compared with: the contribution itself, but for a fringe the one that starts at the edge *)
Definition whole (s : setting) (p : piece) : R :=
  match p with Fringe l n f oc sc => formula s (Fringe l 0 f oc sc) | _ => formula s p end.

(** ** What the code computes *)
Definition cap (square atan : float -> float) (s : setting) (p : piece) : float :=
  let dbu := num_float (unit s) in
  match p with
  | Overlap area c => overlap_cap square dbu area (num_float c)
  | Sidewall l d c o => sidewall_cap dbu l d (num_float c) (num_float o)
  | Fringe l n f oc sc => fringe_cap atan dbu (num_float (halo s)) (fit_halo s) l n f (num_float oc) (num_float sc)
  end.
Definition reported (square atan : float -> float) (s : setting) (cells : list (list (list (list piece)))) : float :=
  total (map (map (map (map (cap square atan s)))) cells).
(** all contributions, whatever cell, table and key they have *)
Definition pieces (cells : list (list (list (list piece)))) : list piece := concat (concat (concat cells)).
Definition rsum (l : list R) : R := fold_right Rplus 0 l.
(** no list of the tables has more than n entries *)
Definition at_most {A} (n : nat) (cells : list (list (list (list A)))) : Prop :=
  (length cells <= n)%nat /\ Forall (fun kinds => (length kinds <= n)%nat /\ Forall (fun keys => (length keys <= n)%nat /\ Forall (fun l => (length l <= n)%nat) keys) kinds) cells.
