(** What numbers in files mean, and how near to the float they have to be: C96, C97. *)
From Coq Require Import ZArith Reals String Ascii List.
From Flocq Require Import Core.Core IEEE754.BinarySingleNaN.
From Verif Require Import PyStr FP_Model FP_Spec.
Import ListNotations.
Local Open Scope string_scope.
Local Open Scope R_scope.

(** ** Decimal notation *)
(** a text of one or more digits is a natural number *)
Fixpoint digits_value (acc : Z) (s : string) : Z :=
  match s with "" => acc | String c t => digits_value (10 * acc + (Z.of_nat (nat_of_ascii c) - 48)) t end.
Definition natural (s : string) (n : Z) : Prop := s <> "" /\ all_chars isdigit s = true /\ n = digits_value 0 s.
(** digits, or digits and a point and digits *)
Definition fraction (s : string) (x : R) : Prop :=
  (exists n, natural s n /\ x = IZR n) \/
  (exists i f n, s = i ++ "." ++ f /\ i <> "" /\ f <> "" /\ natural (i ++ f) n /\ x = IZR n / 10 ^ String.length f).
(** nothing, or the letter e with a sign and digits *)
Definition exponent (s : string) (k : Z) : Prop :=
  s = "" /\ k = 0%Z \/
  (exists ds n, natural ds n /\ (s = "e+" ++ ds /\ k = n \/ s = "e-" ++ ds /\ k = (- n)%Z)).
Definition decimal (s : string) (x : R) : Prop :=
  exists m ex y k, fraction m y /\ exponent ex k /\
    (s = m ++ ex /\ x = y * powerRZ 10 k \/ s = "-" ++ m ++ ex /\ x = - (y * powerRZ 10 k)).
(** a number with at most twelve significant digits *)
Definition twelve_digits (x : R) : Prop := exists q k, (Z.abs q < 10 ^ 12)%Z /\ x = IZR q * powerRZ 10 k.

(** ** Nearness *)
(** within half a unit of the twelfth digit, at most *)
Definition close (x y : R) : Prop := Rabs (y - x) <= 5 / 10 ^ 12 * Rabs x.
(** The float nearest to a real number: none is nearer, and of two that are as near it is the one with the even significand *)
Definition nearest_float (x : R) (y : float) : Prop :=
  is_finite y = true /\ val y = round radix2 (SpecFloat.fexp prec emax) ZnearestE x.
(** neither so large nor so small that a float has less than its usual precision *)
Definition ordinary (x : R) : Prop := / 10 ^ 290 <= Rabs x <= 10 ^ 290.
(** a character of a number *)
Definition number_char (c : ascii) : bool := isdigit c || Ascii.eqb c "." || Ascii.eqb c "e" || Ascii.eqb c "+" || Ascii.eqb c "-".
