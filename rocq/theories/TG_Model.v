(** The triangles of klayout_pex/fastercap/fastercap_model_generator.py in floating point: where they are, and the reference points that tell
    FasterCap which side is outside.  Floats as in FP_Model.  An exception is [None]. *)
From Coq Require Import ZArith List String.
From Flocq Require Import Core.Core IEEE754.BinarySingleNaN.
From Verif Require Import PyBase PyLib FP_Model.
From Verif Require FG_Model.
Import ListNotations.
Local Close Scope Qc_scope.

(** math.sqrt and - x of floats *)
Definition fsqrt : float -> float := Bsqrt mode_NE.
Definition fopp : float -> float := Bopp.

(** class Point, fastercap_model_generator.py L246-253 *)
Record point := Pt { px : float; py : float; pz : float }.
Definition pt_sub (a b : point) : point := Pt (fsub (px a) (px b)) (fsub (py a) (py b)) (fsub (pz a) (pz b)).
(** class Triangle, fastercap_model_generator.py L276-283 *)
Definition tri : Type := @FG_Model.tri point.
Definition reversed : tri -> tri := FG_Model.tri_rev.
(** an integer point of KLayout, and three of them *)
Definition grid_point : Type := (Z * Z)%type.
Definition grid_tri : Type := (grid_point * grid_point * grid_point)%type.

Section Reference.
(** x ** 2 *)
Variable square : float -> float.
(** Triangle.outside_reference_point, fastercap_model_generator.py L285-295; [None] is a ZeroDivisionError *)
Definition outside_reference_point (t : tri) : option point :=
  let '(p0, p1, p2) := t in
  let v1 := pt_sub p1 p0 in
  let v2 := pt_sub p2 p0 in
  let vp := Pt (fsub (fmul (py v1) (pz v2)) (fmul (pz v1) (py v2)))
               (fadd (fmul (fopp (px v1)) (pz v2)) (fmul (pz v1) (px v2)))
               (fsub (fmul (px v1) (py v2)) (fmul (py v1) (px v2))) in
  let vp_abs := fsqrt (fadd (fadd (square (px vp)) (square (py vp))) (square (pz vp))) in
  if Beqb vp_abs (of_int 0) then None
  else Some (Pt (fadd (px p0) (fdiv (px vp) vp_abs)) (fadd (py p0) (fdiv (py vp) vp_abs)) (fadd (pz p0) (fdiv (pz vp) vp_abs))).
End Reference.

Section Surfaces.
(** the database unit in micrometres *)
Variable dbu : float.

(** ** Horizontal surfaces.  [ts] are the triangles of region.delaunay(...) *)
(** the point of fastercap_model_generator.py L596-597, L647-648, L666-667 *)
Definition h_point (z : float) (p : grid_point) : point := Pt (fmul (of_int (fst p)) dbu) (fmul (of_int (snd p)) dbu) z.
Definition h_tri (z : float) (t : grid_tri) : tri := let '(a, b, c) := t in (h_point z a, h_point z b, h_point z c).
(** what generate_hdiel, generate_hcond_in and generate_hcond_out append, fastercap_model_generator.py L594-599, L645-650, L664-671 *)
Definition generate_hdiel (z : float) (ts : list grid_tri) : list tri := map (h_tri z) ts.
Definition generate_hcond_in (z : float) (ts : list grid_tri) : list tri := map (h_tri z) ts.
Definition generate_hcond_out (z : float) (ts : list grid_tri) : list tri := map (fun t => reversed (h_tri z t)) ts.

(** ** Vertical surfaces *)
(** kdb.Edge *)
Record edge := Edge { p1 : grid_point; p2 : grid_point }.
Definition dx (e : edge) : Z := (fst (p2 e) - fst (p1 e))%Z.
Definition dy (e : edge) : Z := (snd (p2 e) - snd (p1 e))%Z.
(** the p0 and de of class VKey, fastercap_model_generator.py L239-243 *)
Record plane := Plane { p0x : float; p0y : float; dex : float; dey : float }.
(** fastercap_model_generator.py L607-610, L614.  An edge of length 0 never gets here (L625-626, L678-679). *)
Definition v_plane (e : edge) : plane :=
  let el := fsqrt (of_int (dx e * dx e + dy e * dy e)) in
  let nex := fdiv (of_int (dy e)) el in
  let ney := fdiv (of_int (- dx e)) el in
  let s := fadd (fmul nex (fsub (of_int (fst (p1 e))) (of_int 0))) (fmul ney (fsub (of_int (snd (p1 e))) (of_int 0))) in
  Plane (fadd (fmul nex s) (of_int 0)) (fadd (fmul ney s) (of_int 0)) (fdiv (of_int (dx e)) el) (fdiv (of_int (dy e)) el).
(** (p - p0).sprod(de) as a coordinate of a kdb.Box, fastercap_model_generator.py L611-612, L615-617: KLayout converts between its types for
    integers and for floats on the way *)
Variable along : grid_point -> plane -> Z.
(** generate_v_surface, fastercap_model_generator.py L602-619: the corners of the box in the plane *)
Definition v_surface (z zz : float) (e : edge) : option (grid_point * grid_point) :=
  match side dbu z, side dbu zz with
  | Some a, Some b => Some ((along (p1 e) (v_plane e), a), (along (p2 e) (v_plane e), b))
  | _, _ => None
  end.
(** convert_point, fastercap_model_generator.py L688-691 *)
Definition convert_point (v : plane) (p : grid_point) : point :=
  Pt (fmul (fadd (p0x v) (fmul (dex v) (of_int (fst p)))) dbu)
     (fmul (fadd (p0y v) (fmul (dey v) (of_int (fst p)))) dbu)
     (fmul (of_int (snd p)) dbu).
Definition v_tri (v : plane) (t : grid_tri) : tri := let '(a, b, c) := t in (convert_point v a, convert_point v b, convert_point v c).
(** triangulate, fastercap_model_generator.py L687-699 *)
Definition triangulate (v : plane) (ts : list grid_tri) : list tri := map (v_tri v) ts.

(** ** All surfaces *)
(** A call of generate_hdiel, or an entry of diel_vdata in finalize (L701-709), with the triangles that KLayout makes.  [e] is the first edge in
    the plane of the entry: it gives the VKey, and the others find it (L628-632). *)
Inductive diel_surface :=
  | HDiel (below above : option string) (z : float) (ts : list grid_tri)
  | VDiel (outside inside : option string) (e : edge) (ts : list grid_tri).
(** the same for conductors, with finalize L711-718 *)
Inductive cond_surface :=
  | HCondIn (net : string) (below : option string) (z : float) (ts : list grid_tri)
  | HCondOut (net : string) (above : option string) (z : float) (ts : list grid_tri)
  | VCond (net : string) (outside : option string) (e : edge) (ts : list grid_tri).
(** the keys of fastercap_model_generator.py L588, L628 and L638, L657, L681 *)
Definition diel_key (s : diel_surface) : option string * option string :=
  match s with HDiel below above _ _ => (below, above) | VDiel outside inside _ _ => (outside, inside) end.
Definition cond_key (s : cond_surface) : string * option string :=
  match s with HCondIn net below _ _ => (net, below) | HCondOut net above _ _ => (net, above) | VCond net outside _ _ => (net, outside) end.
Definition diel_tris (s : diel_surface) : list tri :=
  match s with HDiel _ _ z ts => generate_hdiel z ts | VDiel _ _ e ts => triangulate (v_plane e) ts end.
Definition cond_tris (s : cond_surface) : list tri :=
  match s with HCondIn _ _ z ts => generate_hcond_in z ts | HCondOut _ _ z ts => generate_hcond_out z ts | VCond _ _ e ts => triangulate (v_plane e) ts end.
(** diel_data and cond_data, fastercap_model_generator.py L590-592, L640-643, L659-662, L705-707, L714-716 *)
Definition append {K} {E : EqDec K} (d : dict K (list tri)) (k : K) (l : list tri) : dict K (list tri) :=
  dset d k (match dget d k with Some l0 => l0 | None => [] end ++ l).
Definition diel_data (l : list diel_surface) : dict (option string * option string) (list tri) :=
  fold_left (fun d s => append d (diel_key s) (diel_tris s)) l [].
Definition cond_data (l : list cond_surface) : dict (string * option string) (list tri) :=
  fold_left (fun d s => append d (cond_key s) (cond_tris s)) l [].
End Surfaces.
