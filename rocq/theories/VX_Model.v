(** From the calls of the model builder to FasterCap's files: klayout_pex/fastercap/fastercap_model_generator.py, for layouts whose edges are along
    the axes.  The sweep is in SW_Model, floats and triangles are as in FP_Model and TG_Model, the files as in GF_Model.  An exception is [None]. *)
From Coq Require Import ZArith List String.
From Flocq Require Import IEEE754.BinarySingleNaN.
From Verif Require Import PyBase PyLib FP_Model TG_Model ST_Model GF_Model.
From Verif Require SW_Model.
Import ListNotations.
Local Close Scope Qc_scope.

(** ** Shapes *)
(** A unit square of the grid, by its lower left corner.  A kdb.Region, as in add_conductor and add_dielectric, fastercap_model_generator.py L127-143,
    is a set of them if its edges are along the axes. *)
Definition cell : Type := (Z * Z)%type.
(** A unit of a line of the grid: from (x, y) to (x + 1, y), or to (x, y + 1).  An edge of a kdb.Region along an axis is a row of them; the
    code, fastercap_model_generator.py L543-580, handles an edge as a whole, and gets the same surface, as it merges the surfaces of a plane. *)
Inductive piece := PX (x y : Z) | PY (x y : Z).
(** edges are compared by their place, fastercap_model_generator.py L549, L556 *)
#[export] Instance EqDec_piece : EqDec piece.
Proof. intros [x y|x y] [x' y'|x' y']; try (right; congruence); destruct (Z.eq_dec x x') as [->|]; try (right; congruence); destruct (Z.eq_dec y y') as [->|]; (left; congruence) || (right; congruence). Defined.
(** the unit squares on both sides of an edge of region.edges(), fastercap_model_generator.py L543-573 *)
Definition piece_left (b : piece) : cell := match b with PX x y => (x, y) | PY x y => ((x - 1)%Z, y) end.
(** the right side is the one of the region, fastercap_model_generator.py L543-573 *)
Definition piece_right (b : piece) : cell := match b with PX x y => (x, (y - 1)%Z) | PY x y => (x, y) end.
(** the sides of a unit square, for region.edges(), fastercap_model_generator.py L543-573 *)
Definition cell_sides (c : cell) : list piece := [PX (fst c) (snd c); PX (fst c) (snd c + 1); PY (fst c) (snd c); PY (fst c + 1) (snd c)].
(** kdb.Edge with the region on its right, fastercap_model_generator.py L621 and L674; [false] is the other direction *)
Definition edge_of (e : piece * bool) : edge :=
  let '(p, q) := match fst e with PX x y => ((x, y), ((x + 1)%Z, y)) | PY x y => ((x, y), (x, (y + 1)%Z)) end in
  if snd e then Edge p q else Edge q p.
(** the numbers from [a] up to [b], for the box below, fastercap_model_generator.py L615-618 *)
Definition range (a b : Z) : list Z := map (fun i => (a + Z.of_nat i)%Z) (seq 0 (Z.to_nat (b - a))).
(** kdb.Box with these corners, as a set of unit squares, fastercap_model_generator.py L615-618 *)
Definition box_cells (b : grid_point * grid_point) : list cell :=
  let '((x1, y1), (x2, y2)) := b in list_prod (range (Z.min x1 x2) (Z.max x1 x2)) (range (Z.min y1 y2) (Z.max y1 y2)).

(** ** The builder *)
(** add_material, add_conductor and add_dielectric, fastercap_model_generator.py L124-143; heights are floats *)
Inductive call :=
  | AddMaterial (m : string) (k : Qc)
  | AddConductor (net : string) (r : list cell) (z h : float)
  | AddDielectric (m : string) (r : list cell) (z h : float).
(** a height in units of the grid, fastercap_model_generator.py L166 and L170 *)
Definition units (k : Z) : Qc := Q2Qc (inject_Z k).
Section Run.
Variable dbu : float.
(** _add_layer, fastercap_model_generator.py L160-170: the heights become numbers of units; SW_Model goes on with 1 as the database unit *)
Definition to_units (c : call) : option (@SW_Model.call cell) :=
  match c with
  | AddMaterial m _ => Some (SW_Model.AddMaterial m)
  | AddConductor n r z h => match span dbu z h with Some (a, b) => Some (SW_Model.AddConductor n r (units a) (units (b - a))) | None => None end
  | AddDielectric m r z h => match span dbu z h with Some (a, b) => Some (SW_Model.AddDielectric m r (units a) (units (b - a))) | None => None end
  end.
(** all calls one after the other, fastercap_model_generator.py L124-170 *)
Fixpoint all_units (cs : list call) : option (list (@SW_Model.call cell)) :=
  match cs with
  | [] => Some []
  | c :: r => match to_units c, all_units r with Some x, Some y => Some (x :: y) | _, _ => None end
  end.
(** the dict of add_material, fastercap_model_generator.py L124-125 *)
Definition permittivities (cs : list call) : dict string Qc :=
  fold_left (fun d c => match c with AddMaterial m k => dset d m k | _ => d end) cs [].
(** the region of a call, fastercap_model_generator.py L127-143 *)
Definition shapes (c : @SW_Model.call cell) : list cell :=
  match c with SW_Model.AddMaterial _ => [] | SW_Model.AddConductor _ r _ _ | SW_Model.AddDielectric _ r _ _ => r end.
(** all sides of all shapes: where region.edges() can have an edge, fastercap_model_generator.py L543-573 *)
Definition all_pieces (cs : list (@SW_Model.call cell)) : list piece := nodup eq_dec (flat_map cell_sides (flat_map shapes cs)).

(** ** Surfaces *)
(** region.delaunay(...), fastercap_model_generator.py L594, L645, L664, L693 *)
Variable delaunay : list cell -> list grid_tri.
(** as in TG_Model, fastercap_model_generator.py L611-617 *)
Variable along : grid_point -> plane -> Z.
(** a surface that the sweep calls for *)
Notation surface := (@SW_Model.surface cell piece).
(** generate_hdiel, fastercap_model_generator.py L584-600 *)
Definition h_diel (s : surface) : list diel_surface :=
  match s with SW_Model.HDiel z below above r => [HDiel below above (norm2z dbu z) (delaunay r)] | _ => [] end.
(** generate_hcond_in and generate_hcond_out, fastercap_model_generator.py L634-672 *)
Definition h_cond (s : surface) : list cond_surface :=
  match s with
  | SW_Model.HCondIn z net below r => [HCondIn net below (norm2z dbu z) (delaunay r)]
  | SW_Model.HCondOut z net above r => [HCondOut net above (norm2z dbu z) (delaunay r)]
  | _ => []
  end.
(** == of two VKeys with the same kk, fastercap_model_generator.py L239-243 *)
Definition plane_eqb (v w : plane) : bool := Beqb (p0x v) (p0x w) && Beqb (p0y v) (p0y w) && Beqb (dex v) (dex w) && Beqb (dey v) (dey w).
(** diel_vdata and cond_vdata: key, the first edge that came with it, and the region in the plane; inserting a box,
    fastercap_model_generator.py L628-632 and L681-685 *)
Definition entries (K : Type) : Type := list (K * (piece * bool) * list cell).
(** the entry is found by its key, or made, and gets the box, fastercap_model_generator.py L629-632 and L682-685 *)
Fixpoint insert {K} {E : EqDec K} (d : entries K) (k : K) (e : piece * bool) (box : list cell) : entries K :=
  match d with
  | [] => [(k, e, box)]
  | (k', e', r) :: t =>
      if eqb k k' && plane_eqb (v_plane (edge_of e)) (v_plane (edge_of e')) then (k', e', r ++ box) :: t else (k', e', r) :: insert t k e box
  end.
(** the arguments of generate_vdiel, fastercap_model_generator.py L621: key, edge, and the heights z and zz *)
Definition v_diel (s : surface) : list ((option string * option string) * (piece * bool) * Z * Z) :=
  match s with SW_Model.VDiel z zz outside inside e => [((outside, inside), e, z, zz)] | _ => [] end.
(** the arguments of generate_vcond, fastercap_model_generator.py L674 *)
Definition v_cond (s : surface) : list ((string * option string) * (piece * bool) * Z * Z) :=
  match s with SW_Model.VCond z zz net outside e => [((net, outside), e, z, zz)] | _ => [] end.
(** generate_vdiel and generate_vcond, fastercap_model_generator.py L621-632 and L674-685, one call after the other.  A unit is never degenerate. *)
Fixpoint insert_all {K} {E : EqDec K} (l : list (K * (piece * bool) * Z * Z)) (d : entries K) : option (entries K) :=
  match l with
  | [] => Some d
  | (k, e, z, zz) :: r =>
      match v_surface dbu along (norm2z dbu z) (norm2z dbu zz) (edge_of e) with
      | Some b => insert_all r (insert d k e (box_cells b))
      | None => None
      end
  end.
(** what is in diel_data after finalize, fastercap_model_generator.py L701-718, with one entry for each surface *)
Definition diel_surfaces (l : list surface) : option (list diel_surface) :=
  option_map (fun d => flat_map h_diel l ++ map (fun x : _ * _ * _ => let '(k, e, r) := x in VDiel (fst k) (snd k) (edge_of e) (delaunay r)) d) (insert_all (flat_map v_diel l) []).
(** the same for cond_data, fastercap_model_generator.py L701-718 *)
Definition cond_surfaces (l : list surface) : option (list cond_surface) :=
  option_map (fun d => flat_map h_cond l ++ map (fun x : _ * _ * _ => let '(k, e, r) := x in VCond (fst k) (snd k) (edge_of e) (delaunay r)) d) (insert_all (flat_map v_cond l) []).

(** generate and write_fastcap, fastercap_model_generator.py L172-207 and L738-825, after the calls [cs].  Simplified: the builder fails for an
    unknown material (L157-158) and for heights that are no numbers at the same place. *)
Definition fastercap_files (square : float -> float) (limit : nat) (prefix : string) (k_void : Qc) (hash : string -> string) (cs : list call) (old : files) : option files :=
  match all_units cs with
  | None => None
  | Some us =>
      match SW_Model.build 1%Qc us with
      | None => None
      | Some b =>
          match SW_Model.generate piece_left piece_right (all_pieces us) b with
          | None => None
          | Some g =>
              match diel_surfaces (SW_Model.surfaces g), cond_surfaces (SW_Model.surfaces g) with
              | Some dl, Some cl => fastercap_input square limit dbu prefix k_void (permittivities cs) hash dl cl old
              | _, _ => None
              end
          end
      end
  end.
End Run.
