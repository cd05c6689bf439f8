(** The conductors of a FasterCap run: klayout_pex/fastercap/fastercap_input_builder.py, build, L117-219.

    Simplified: heights are whole numbers of database units (C105 says which floats mean them), regions are sets of unit squares, and the
    dielectrics, L221-323, are left to the caller. *)
From Coq Require Import ZArith List String.
From Verif Require Import PyBase PyLib TG_Model VX_Model VX_Spec.
Import ListNotations.
Local Close Scope Qc_scope.
Local Open Scope list_scope.
Local Open Scope Z_scope.

(** a metal layer of tech_info.process_metal_layers with its contact_above, L140-145 and L157-158 *)
Record metal := Metal { m_name : string; m_z : Z; m_thickness : Z; m_contact : option (string * Z) }.
(** a diffusion layer of tech_info.process_diffusion_layers with its contact_above, L176-178 and L189 *)
Record diffusion := Diffusion { f_name : string; f_contact : string * Z }.

Section Build.
(** shapes_of_net, L78-86, per layer and net; "not found" is the empty region *)
Variable shapes_of_net : string -> string -> list cell.
(** kdb.Region.sized, L213 *)
Variable sized : Z -> list cell -> list cell.
Variables (metals : list metal) (diffusions : list diffusion).
(** 0.1 um in units, L187 *)
Variable diffusion_height : Z.
(** substrate_layer.height and substrate_layer.thickness, L205 and L218-219 *)
Variables (height thickness : Z).
(** math.floor(8 / dbu) and math.floor(1 / dbu), L199 and L211 *)
Variables (halo margin : Z).
(** top_cell_bbox(), L98-99: lower left and upper right corner *)
Variable bbox : grid_point * grid_point.

(** "if shapes and not shapes.is_empty()" with add_conductor, L147-155, L159-166, L179-187, L190-197 *)
Definition body (net : string) (r : list cell) (z h : Z) : list layer :=
  match r with [] => [] | _ => [Body (Net net) r z (z + h)] end.
(** the metal layers of a net, L140-166 *)
Definition metal_bodies (net : string) (m : metal) : list layer :=
  body net (shapes_of_net (m_name m) net) (m_z m) (m_thickness m) ++
  match m_contact m with Some (c, t) => body net (shapes_of_net c net) (m_z m + m_thickness m) t | None => [] end.
(** the diffusion layers of a net, L176-197 *)
Definition diffusion_bodies (net : string) (f : diffusion) : list layer :=
  body net (shapes_of_net (f_name f) net) 0 diffusion_height ++ body net (shapes_of_net (fst (f_contact f)) net) 0 (snd (f_contact f)).
(** one round of the loop over the nets, L132-197 *)
Definition net_bodies (net : string) : list layer := flat_map (metal_bodies net) metals ++ flat_map (diffusion_bodies net) diffusions.
(** diffusion_regions, L130 and L181; empty ones, which are not appended, have no effect *)
Definition diffusion_regions (nets : list string) : list (list cell) :=
  flat_map (fun net => map (fun f => shapes_of_net (f_name f) net) diffusions) nets.
(** kdb.Box.enlarged, L199 *)
Definition enlarged (b : grid_point * grid_point) (m : Z) : grid_point * grid_point :=
  let '((x1, y1), (x2, y2)) := b in ((x1 - m, y1 - m), (x2 + m, y2 + m)).
(** substrate_region, L206-213 *)
Definition substrate_region (nets : list string) : list cell :=
  fold_left (fun r d => filter (fun c => negb (existsb (eqb c) (sized margin d))) r) (diffusion_regions nets) (box_cells (enlarged bbox halo)).
(** the calls of add_conductor, L132-219 *)
Definition conductors (nets : list string) : list layer :=
  flat_map net_bodies nets ++ [Body (Net "VSUBS") (substrate_region nets) (0 - height - thickness) (0 - height - thickness + thickness)].
End Build.
