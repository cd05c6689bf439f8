(** Model of klayout_pex/rcx25/c/overlap_extractor.py,
    PEXPolygonNeighborhoodVisitor.neighbors (L91-155).

    A kdb.Region is its set of points (a boolean predicate on an arbitrary type of
    points), [Region.area] is an arbitrary measure [area]; KLayout's own polygon
    engine is not modelled. *)
From Coq Require Import String.
From Verif Require Import PyBase PyLib ER_Model.
Set Implicit Arguments.
Local Open Scope Qc_scope.

Section Overlap.
Context {pt : Type}.
Definition region := pt -> bool.
(** Region() *)
Definition rempty : region := fun _ => false.
(** Region.__and__, Region.__sub__, Region.insert *)
Definition rand (a b : region) : region := fun p => a p && b p.
Definition rsub (a b : region) : region := fun p => a p && negb (b p).
Definition rinsert (a b : region) : region := fun p => a p || b p.

(** kdb.PolygonWithProperties: its net property and its points *)
Record poly := Poly { p_net : string; p_points : region }.

(** Region.area() in square database units *)
Variable area : region -> Qc.
Variable dbu : Qc.
(** tech_info.internal_substrate_layer_name *)
Variable substrate : string.
(** tech_info.overlap_cap_by_layer_names: top layer -> bottom layer -> capacitance *)
Variable specs : dict string (dict string Qc).
Variable layer_names : list string.

(** one call of report.output_overlap / results.add_overlap_cap, L138-153: the cap and
    the overlap area it was computed from *)
Record emitted := Emitted { em_cap : overlap_cap; em_top : poly; em_area : region }.

(** L118-125: [None] is the warning followed by [return].  An empty inner table is
    falsy in Python. *)
Definition spec_for (top bot : string) : option Qc :=
  match dget specs top with
  | None => None
  | Some [] => None
  | Some t => dget t bot
  end.

(** loop state: shielded_region and what was reported so far; [st_done]: returned *)
Record st := St { st_shield : region; st_out : list emitted; st_done : bool }.

(** body of the inner loop, L110-155 *)
Definition visit (bot_name net_bot : string) (bottom : region) (top_name : string) (s : st) (p : poly) : st :=
  if st_done s then s
  else if eqb (p_net p) net_bot then s
  else match spec_for top_name bot_name with
       | None => St (st_shield s) (st_out s) true
       | Some c =>
           let overlap := rsub (rand (p_points p) bottom) (st_shield s) in
           let cap := area overlap * (dbu * dbu) * c / Q2Qc 1000 in
           let out := if qltb 0 cap
             then st_out s ++ [Emitted (OverlapCap (top_name, p_net p, bot_name, net_bot) cap 0 0) p overlap]
             else st_out s in
           St (rinsert (st_shield s) (p_points p)) out false
       end.
(** the loop over layers, L105-108 *)
Definition visit_layer (bot_name net_bot : string) (bottom : region) (neighborhood : dict nat (list poly))
    (s : st) (k : nat) : st :=
  match dget neighborhood k with
  | None => s
  | Some ps => fold_left (visit bot_name net_bot bottom (nth k layer_names EmptyString)) ps s
  end.
(** neighbors, L91-155, for the visitor with inside_layer_index [inside] *)
Definition neighbors (inside : nat) (polygon : poly) (neighborhood : dict nat (list poly)) : list emitted :=
  let bot_name := nth inside layer_names EmptyString in
  let net_bot := if eqb bot_name substrate then substrate else p_net polygon in
  st_out (fold_left (visit_layer bot_name net_bot (p_points polygon) neighborhood)
            (seq (S inside) (List.length layer_names - S inside)) (St rempty [] false)).
End Overlap.
Arguments region : clear implicits.
Arguments poly : clear implicits.
Arguments emitted : clear implicits.
