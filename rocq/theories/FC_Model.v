(** Floating point in the capacitances of the 2.5D engine: klayout_pex/rcx25/c/overlap_extractor.py,
    klayout_pex/rcx25/c/sidewall_and_fringe_extractor.py, klayout_pex/rcx25/extraction_results.py.  Floats as in FP_Model.  Areas, lengths
    and distances are ints, as KLayout gives them. *)
From Coq Require Import ZArith List Bool.
From Flocq Require Import Core.Core IEEE754.BinarySingleNaN.
From Verif Require Import FP_Model.
Import ListNotations.

(** a < b and a <= b of floats *)
Definition flt : float -> float -> bool := Bltb.
Definition fle : float -> float -> bool := Bleb.
(** math.pi, the float 884279719003555 / 2 ** 48 *)
Definition math_pi : float := lit 884279719003555 281474976710656.

Section Caps.
(** x ** 2 of a float x, and math.atan: functions of the C library *)
Variables square atan : float -> float.
(** the database unit in micrometres *)
Variable dbu : float.

(** overlap_extractor.py L131-132 *)
Definition overlap_cap (area : Z) (capacitance : float) : float :=
  let overlap_area_um2 := fmul (of_int area) (square dbu) in
  fdiv (fmul overlap_area_um2 capacitance) (of_int 1000).
(** overlap_extractor.py L137: whether it is recorded *)
Definition overlap_kept (cap_femto : float) : bool := flt (of_int 0) cap_femto.

(** sidewall_and_fringe_extractor.py L287-295 *)
Definition sidewall_cap (avg_length avg_distance : Z) (capacitance offset : float) : float :=
  let length_um := fmul (of_int avg_length) dbu in
  let distance_um := fmul (of_int avg_distance) dbu in
  fdiv (fdiv (fdiv (fmul length_um capacitance) (fadd distance_um offset)) (of_int 2)) (of_int 1000).

(** (2.0 / math.pi) * math.atan(alpha_c * d), sidewall_and_fringe_extractor.py L328-329, L332 *)
Definition atan_ratio (alpha_c d : float) : float := fmul (fdiv (of_int 2) math_pi) (atan (fmul alpha_c d)).
(** 0.02 * 0.01 * 0.5 * 200.0, sidewall_and_fringe_extractor.py L324 *)
Definition alpha_scale_factor : float := fmul (fmul (fmul (lit 2 100) (lit 1 100)) (lit 1 2)) (of_int 200).
(** fringe_cap, sidewall_and_fringe_extractor.py L313-347.  Simplified: a ratio of 0.0 raises in L336; the halo and the capacitances are
    not 0 here *)
Definition fringe_cap (side_halo : float) (scale_ratio_to_fit_halo : bool) (edge_interval_length distance_near distance_far : Z)
    (overlap_c sideoverlap_c : float) : float :=
  let distance_near_um := fmul (of_int distance_near) dbu in
  let distance_far_um := fmul (of_int distance_far) dbu in
  let edge_interval_length_um := fmul (of_int edge_interval_length) dbu in
  let alpha_c := fmul overlap_c alpha_scale_factor in
  let cnear := atan_ratio alpha_c distance_near_um in
  let cfar := atan_ratio alpha_c distance_far_um in
  let full_halo_ratio := atan_ratio alpha_c side_halo in
  let scale := scale_ratio_to_fit_halo && flt full_halo_ratio (of_int 1) in
  let cnear := if scale then fdiv cnear full_halo_ratio else cnear in
  let cfar := if scale then fdiv cfar full_halo_ratio else cfar in
  let cfrac := fsub cfar cnear in
  fdiv (fmul (fmul cfrac edge_interval_length_um) sideoverlap_c) (of_int 1000).
(** sidewall_and_fringe_extractor.py L447: whether it is recorded *)
Definition fringe_kept (cap_femto : float) : bool := flt (lit 1 10000) cap_femto.
End Caps.

(** sum(...) of floats as Python 3.12 has it (pyproject.toml L64 asks for it), builtin_sum of CPython: a running sum and a compensation.
    It starts with the int 0, and 0 + x is x. *)
Definition sum_step (acc : float * float) (x : float) : float * float :=
  let '(f, c) := acc in
  let t := fadd f x in
  (t, fadd c (if fle (Babs x) (Babs f) then fadd (fsub f t) x else fadd (fsub x t) f)).
Definition py_sum (l : list float) : float :=
  match l with
  | [] => of_int 0
  | x :: l =>
      let '(f, c) := fold_left sum_step l (fadd (of_int 0) x, of_int 0) in
      if Beqb c (of_int 0) || negb (is_finite c) then f else fadd f c
  end.
(** defaultdict(float) and += : from 0.0 on *)
Definition added (l : list float) : float := fold_left fadd l (of_int 0).
(** What extraction_results.py L175-194, L143-148, L210-213, L220-222 report for one pair of nets.  [cells] has for each cell, for each of the three tables
    and for each key with these nets the entries of this key. *)
Definition kind_total (keys : list (list float)) : float := added (map py_sum keys).
Definition cell_total (kinds : list (list (list float))) : float := added (map kind_total kinds).
Definition total (cells : list (list (list (list float)))) : float := added (map cell_total cells).
