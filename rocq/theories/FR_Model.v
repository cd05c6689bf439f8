(** Model of PEXEdgeNeighborhoodVisitor.fringe_cap,
    klayout_pex/rcx25/c/sidewall_and_fringe_extractor.py L313-347, over the reals
    (floating point rounding is not modelled). *)
From Coq Require Import Reals.
Local Open Scope R_scope.

(** L324: 0.02 * 0.01 * 0.5 * 200.0 *)
Definition alpha_scale_factor : R := 2 / 100 * (1 / 100) * (1 / 2) * 200.
(** (2.0 / math.pi) * math.atan(alpha_c * d), L328-329 and L332 *)
Definition atan_ratio (alpha_c d : R) : R := 2 / PI * atan (alpha_c * d).

(** fringe_cap: [None] is the ZeroDivisionError of L336 *)
Definition fringe_cap (dbu side_halo : R) (scale_ratio_to_fit_halo : bool)
    (edge_interval_length distance_near distance_far overlap_c sideoverlap_c : R) : option R :=
  let distance_near_um := distance_near * dbu in
  let distance_far_um := distance_far * dbu in
  let edge_interval_length_um := edge_interval_length * dbu in
  let alpha_c := overlap_c * alpha_scale_factor in
  let cnear := atan_ratio alpha_c distance_near_um in
  let cfar := atan_ratio alpha_c distance_far_um in
  let result cnear cfar := Some ((cfar - cnear) * edge_interval_length_um * sideoverlap_c / 1000) in
  if scale_ratio_to_fit_halo then
    let full_halo_ratio := atan_ratio alpha_c side_halo in
    if Rlt_dec full_halo_ratio 1 then
      if Req_EM_T full_halo_ratio 0 then None
      else result (cnear / full_halo_ratio) (cfar / full_halo_ratio)
    else result cnear cfar
  else result cnear cfar.
