(** Floating point where the code turns lengths into grid units: klayout_pex/fastercap/fastercap_model_generator.py,
    klayout_pex/fastercap/fastercap_input_builder.py, klayout_pex/rcx25/c/sidewall_and_fringe_extractor.py.
    A Python float is an IEEE 754 binary64 number as in Flocq; an operation rounds to the nearest, ties to even.  An exception is [None]. *)
From Coq Require Import ZArith List.
From Flocq Require Import Core.Core IEEE754.BinarySingleNaN.
Import ListNotations.

Definition prec : Z := 53.
Definition emax : Z := 1024.
#[export] Instance Hprec : FLX.Prec_gt_0 prec := eq_refl.
#[export] Instance Hmax : Prec_lt_emax prec emax := eq_refl.
Notation float := (binary_float prec emax).

(** a + b, a - b, a * b, a / b of floats.  Simplified: a / 0.0 gives an infinity, Python raises; the unit is never 0 here *)
Definition fadd : float -> float -> float := Bplus mode_NE.
Definition fsub : float -> float -> float := Bminus mode_NE.
Definition fmul : float -> float -> float := Bmult mode_NE.
Definition fdiv : float -> float -> float := Bdiv mode_NE.
(** float(n), which also happens if an int meets a float.  Simplified: too large an int gives an infinity, Python raises *)
Definition of_int (n : Z) : float := binary_normalize prec emax Hprec Hmax mode_NE n 0 false.
(** the literal n / d in decimal notation: the float nearest to it *)
Definition lit (n d : Z) : float := fdiv (of_int n) (of_int d).
(** math.floor(x): fails for infinities and nan *)
Definition floor (x : float) : option Z :=
  match x with
  | B754_zero _ => Some 0%Z
  | B754_finite s m e _ => let n := cond_Zopp s (Zpos m) in Some (if (0 <=? e)%Z then n * 2 ^ e else n / 2 ^ (- e))%Z
  | _ => None
  end.
(** int(x) of a float: towards zero *)
Definition int (x : float) : option Z :=
  match x with
  | B754_zero _ => Some 0%Z
  | B754_finite s m e _ => let n := cond_Zopp s (Zpos m) in Some (if (0 <=? e)%Z then n * 2 ^ e else Z.quot n (2 ^ (- e)))%Z
  | _ => None
  end.

(** ** Heights, fastercap_model_generator.py *)
Section Heights.
(** the unit, as a float *)
Variable dbu : float.
(** fastercap_model_generator.py L145-146; the argument is an int *)
Definition norm2z (n : Z) : float := fmul (of_int n) dbu.
(** fastercap_model_generator.py L148-149 *)
Definition z2norm (z : float) : option Z := floor (fadd (fdiv z dbu) (lit 1 1000000)).
(** fastercap_model_generator.py L160-170: where a layer starts and stops *)
Definition span (z height : float) : option (Z * Z) :=
  let zstart := z in
  let zstop := fadd zstart height in
  match z2norm zstart, z2norm zstop with Some a, Some b => Some (a, b) | _, _ => None end.
(** fastercap_model_generator.py L615-618: the lower or upper side of a vertical surface *)
Definition side (z : float) : option Z := floor (fadd (fdiv z dbu) (lit 1 2)).
(** fastercap_model_generator.py L687-691: the height of a corner of a vertical triangle *)
Definition corner (y : Z) : float := fmul (of_int y) dbu.

(** ** Widths, fastercap_input_builder.py *)
(** fastercap_input_builder.py L268, L282 *)
Definition sidewall_width (w : float) : option Z := floor (fdiv w dbu).
(** fastercap_input_builder.py L199, L211: [um] is 8 or 1 *)
Definition margin (um : Z) : option Z := floor (fdiv (of_int um) dbu).

(** ** The halo, sidewall_and_fringe_extractor.py L88-89 *)
Definition side_halo_dbu (side_halo_um : float) : option Z := option_map (fun n => n + 1)%Z (int (fdiv side_halo_um dbu)).
End Heights.

(** Heights as fastercap_input_builder.py L137-156, L199-330 writes them: sums and differences of numbers from the technology, in this order *)
Inductive height := Num (n d : Z) | Sum (a b : height) | Diff (a b : height).
Fixpoint computed (h : height) : float :=
  match h with Num n d => lit n d | Sum a b => fadd (computed a) (computed b) | Diff a b => fsub (computed a) (computed b) end.
