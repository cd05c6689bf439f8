(** What the triangles for FasterCap should be: C93, C94. *)
From Coq Require Import ZArith Reals List String.
From Flocq Require Import IEEE754.BinarySingleNaN.
From Verif Require Import FP_Model FP_Spec FC_Spec TG_Model.
Import ListNotations.
Local Open Scope R_scope.

(** a function for x ** 2 that is off by less than one unit in the last place, for arguments that are 0 or neither tiny nor huge *)
Definition squares (f : float -> float) : Prop :=
  forall x, is_finite x = true -> val x = 0 \/ / 10 ^ 60 <= Rabs (val x) <= 10 ^ 60 ->
    is_finite (f x) = true /\ Rabs (val (f x) - val x * val x) <= 2 * half_ulp * (val x * val x).
(** a database unit between a femtometre and a micrometre *)
Definition unit_ok (dbu : float) : Prop := is_finite dbu = true /\ / 1000000000 <= val dbu <= 1.
(** a coordinate of a few millimetres on a grid of one nanometre *)
Definition near_origin (n : Z) : Prop := (Z.abs n <= 4194304)%Z.
Definition p_near (p : grid_point) : Prop := near_origin (fst p) /\ near_origin (snd p).
Definition height_ok (z : float) : Prop := is_finite z = true /\ Rabs (val z) <= 1000000.

(** ** Triangles of the grid, as KLayout makes them: clockwise *)
Definition clockwise (t : grid_tri) : Prop :=
  let '((ax, ay), (bx, by_), (cx, cy)) := t in ((bx - ax) * (cy - ay) - (by_ - ay) * (cx - ax) < 0)%Z.
Definition tri_near (t : grid_tri) : Prop := let '(a, b, c) := t in p_near a /\ p_near b /\ p_near c.
Definition tri_ok (t : grid_tri) : Prop := clockwise t /\ tri_near t.
(** ** Edges with one direction of the axes *)
Definition axis_parallel (e : edge) : Prop := (dx e = 0 /\ dy e <> 0 \/ dx e <> 0 /\ dy e = 0)%Z.
Definition edge_ok (e : edge) : Prop := axis_parallel e /\ p_near (p1 e) /\ p_near (p2 e).

(** ** Directions *)
Definition vec : Type := R * R * R.
Definition down : vec := (0, 0, -1).
Definition up : vec := (0, 0, 1).
(** seen along the edge; the polygon that the edge belongs to is to the right of it *)
Definition left (e : edge) : vec := (- IZR (Z.sgn (dy e)), IZR (Z.sgn (dx e)), 0).
Definition opposite (v : vec) : vec := let '(x, y, z) := v in (- x, - y, - z).
Definition first (t : tri) : point := fst (fst t).
(** a number, no infinity and no nan, that is this one up to a billionth *)
Definition about (x : float) (r : R) : Prop := is_finite x = true /\ Rabs (val x - r) <= / 1000000000.
(** The reference point of the triangle is one micrometre from its first corner in this direction, up to a femtometre. *)
Definition faces (square : float -> float) (t : tri) (v : vec) : Prop :=
  let '(x, y, z) := v in
  exists rp, outside_reference_point square t = Some rp /\
    about (px rp) (val (px (first t)) + x) /\ about (py rp) (val (py (first t)) + y) /\ about (pz rp) (val (pz (first t)) + z).

(** ** Surfaces that are meant, and where outside is *)
Definition diel_ok (s : diel_surface) : Prop :=
  match s with HDiel _ _ z ts => height_ok z /\ Forall tri_ok ts | VDiel _ _ e ts => edge_ok e /\ Forall tri_ok ts end.
Definition cond_ok (s : cond_surface) : Prop :=
  match s with HCondIn _ _ z ts | HCondOut _ _ z ts => height_ok z /\ Forall tri_ok ts | VCond _ _ e ts => edge_ok e /\ Forall tri_ok ts end.
(** the direction from a surface to its first material: below for a horizontal surface, to the left for a vertical one *)
Definition diel_side (s : diel_surface) : vec := match s with HDiel _ _ _ _ => down | VDiel _ _ e _ => left e end.
(** the direction out of the conductor *)
Definition cond_side (s : cond_surface) : vec := match s with HCondIn _ _ _ _ => down | HCondOut _ _ _ _ => up | VCond _ _ e _ => left e end.
(** the materials below and above a horizontal surface, to the left and to the right of a vertical one *)
Definition materials (s : diel_surface) : option string * option string :=
  match s with HDiel below above _ _ => (below, above) | VDiel outside inside _ _ => (outside, inside) end.
(** the net of a conductor, and the material on the other side of the surface *)
Definition net_and_outside (s : cond_surface) : string * option string :=
  match s with HCondIn net below _ _ => (net, below) | HCondOut net above _ _ => (net, above) | VCond net outside _ _ => (net, outside) end.
(** From a surface towards a material [m] that is on one side of it *)
Definition towards (s : diel_surface) (m : option string) (v : vec) : Prop :=
  m = fst (materials s) /\ v = diel_side s \/ m = snd (materials s) /\ v = opposite (diel_side s).

(** ** Places *)
(** KLayout's conversions between integers and floats do not change whole numbers *)
Definition whole_exact (along : grid_point -> plane -> Z) : Prop :=
  forall p v a b c d, is_finite (p0x v) = true -> is_finite (p0y v) = true -> is_finite (dex v) = true -> is_finite (dey v) = true ->
    val (p0x v) = IZR a -> val (p0y v) = IZR b -> val (dex v) = IZR c -> val (dey v) = IZR d ->
    (Z.abs a < 2 ^ 30 -> Z.abs b < 2 ^ 30 -> along p v = (fst p - a) * c + (snd p - b) * d)%Z.
(** a point of the edge *)
Definition on_edge (e : edge) (p : grid_point) : Prop :=
  ((fst p - fst (p1 e)) * dy e = (snd p - snd (p1 e)) * dx e /\
   Z.min (fst (p1 e)) (fst (p2 e)) <= fst p <= Z.max (fst (p1 e)) (fst (p2 e)) /\
   Z.min (snd (p1 e)) (snd (p2 e)) <= snd p <= Z.max (snd (p1 e)) (snd (p2 e)))%Z.
(** a corner at this place, given in database units, up to a billionth of a unit *)
Definition at_place (dbu : float) (g : Z * Z * Z) (p : point) : Prop :=
  let '(x, y, z) := g in
  Rabs (val (px p) - IZR x * val dbu) <= val dbu / 1000000000 /\ Rabs (val (py p) - IZR y * val dbu) <= val dbu / 1000000000 /\
  Rabs (val (pz p) - IZR z * val dbu) <= val dbu / 1000000000.
(** the place of a point of the wall over an edge along an axis *)
Definition on_wall (e : edge) (q : grid_point) : Z * Z * Z :=
  ((if dx e =? 0 then fst (p1 e) else Z.sgn (dx e) * fst q)%Z, (if dy e =? 0 then snd (p1 e) else Z.sgn (dy e) * fst q)%Z, snd q).
(** the same at height z, which is a float already *)
Definition at_level (dbu z : float) (g : grid_point) (p : point) : Prop :=
  Rabs (val (px p) - IZR (fst g) * val dbu) <= val dbu / 1000000000 /\ Rabs (val (py p) - IZR (snd g) * val dbu) <= val dbu / 1000000000 /\ pz p = z.
(** a relation of points for each of the three corners *)
Definition corners {A} (P : A -> point -> Prop) (g : A * A * A) (t : tri) : Prop :=
  let '(a, b, c) := g in let '(x, y, z) := t in P a x /\ P b y /\ P c z.
(** The triangles of a surface are those of KLayout, each in its place. *)
Definition diel_placed (dbu : float) (s : diel_surface) (l : list tri) : Prop :=
  match s with
  | HDiel _ _ z ts => Forall2 (corners (at_level dbu z)) ts l
  | VDiel _ _ e ts => Forall2 (corners (fun q => at_place dbu (on_wall e q))) ts l
  end.
Definition cond_placed (dbu : float) (s : cond_surface) (l : list tri) : Prop :=
  match s with
  | HCondIn _ _ z ts => Forall2 (corners (at_level dbu z)) ts l
  | HCondOut _ _ z ts => Forall2 (fun g t => corners (at_level dbu z) g (reversed t)) ts l
  | VCond _ _ e ts => Forall2 (corners (fun q => at_place dbu (on_wall e q))) ts l
  end.
(** the same line, with the same direction *)
Definition same_line (e e' : edge) : Prop :=
  (Z.sgn (dx e) = Z.sgn (dx e') /\ Z.sgn (dy e) = Z.sgn (dy e') /\ (fst (p1 e') - fst (p1 e)) * dy e = (snd (p1 e') - snd (p1 e)) * dx e)%Z.
(** planes with the same numbers *)
Definition same_plane (v w : plane) : Prop := val (p0x v) = val (p0x w) /\ val (p0y v) = val (p0y w) /\ val (dex v) = val (dex w) /\ val (dey v) = val (dey w).
(** two points in the same place *)
Definition same_place (p q : point) : Prop := val (px p) = val (px q) /\ val (py p) = val (py q) /\ val (pz p) = val (pz q).
