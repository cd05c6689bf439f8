(** What FasterCap should read for the bodies of a layout, and where: C105. *)
From Coq Require Import ZArith Reals String List Permutation.
From Flocq Require Import IEEE754.BinarySingleNaN.
From Verif Require Import PyBase PyLib FP_Model FP_Spec TG_Model TG_Spec ST_Spec GF_Spec VX_Model.
From Verif Require SW_Model SW_Spec.
Import ListNotations.
Local Close Scope Qc_scope.
Local Open Scope list_scope.
Local Open Scope R_scope.
Notation mkey := SW_Model.mkey.
Notation Net := SW_Model.Net.
Notation Mat := SW_Model.Mat.
#[export] Existing Instance SW_Model.EqDec_mkey.

(** ** Bodies *)
(** A material with its permittivity; or a body of a net or a material over some unit squares, from the height [a] to the height [b], in units *)
Inductive layer := Material (m : string) (k : Qc) | Body (who : mkey) (r : list cell) (a b : Z).
(** The floats [z] and [h] are computed from a short sum, which starts on the line [a] of the grid and ends on the line [b] *)
Definition lines (n d : Z) (z h : float) (a b : Z) : Prop :=
  exists e e', z = computed e /\ h = computed e' /\ usual n d e /\ usual n d (Sum e e') /\
    exact e = IZR a * (IZR n / IZR d) /\ exact e + exact e' = IZR b * (IZR n / IZR d).
(** what a call adds to the layout *)
Inductive means (n d : Z) : call -> layer -> Prop :=
  | MeansMaterial m k : means n d (AddMaterial m k) (Material m k)
  | MeansConductor net r z h a b : lines n d z h a b -> means n d (AddConductor net r z h) (Body (Net net) r a b)
  | MeansDielectric m r z h a b : lines n d z h a b -> means n d (AddDielectric m r z h) (Body (Mat m) r a b).
(** on a grid of one nanometre: a few millimetres around the origin, and less than one millimetre up or down *)
Definition cell_near (c : cell) : Prop := (-4194304 <= fst c < 4194304)%Z /\ (-4194304 <= snd c < 4194304)%Z.
Definition layer_near (l : layer) : Prop :=
  match l with Material _ _ => True | Body _ r a b => Forall cell_near r /\ (Z.abs a < 1000000)%Z /\ (Z.abs b < 1000000)%Z end.

(** ** Who owns which unit cube *)
(** the cube over a unit square between two lines of heights *)
Definition cube : Type := (cell * Z)%type.
Definition fills (q : cube) (who : mkey) (l : layer) : bool :=
  match l with
  | Material _ _ => false
  | Body k r a b => eqb k who && (a <=? snd q)%Z && (snd q <? b)%Z && existsb (eqb (fst q)) r
  end.
Definition present (ls : list layer) (q : cube) (who : mkey) : bool := existsb (fills q who) ls.
(** nets come before materials; nets in the order of their first bodies, materials in the order of their first declarations *)
Definition nets (ls : list layer) : list string := SW_Spec.firsts [] (flat_map (fun l => match l with Body (Net n) _ _ _ => [n] | _ => [] end) ls).
Definition declared (ls : list layer) : list string := SW_Spec.firsts [] (flat_map (fun l => match l with Material m _ => [m] | _ => [] end) ls).
Definition everyone (ls : list layer) : list mkey := map Net (nets ls) ++ map Mat (declared ls).
(** the first one of those present; [None] is the void *)
Definition owner (ls : list layer) (q : cube) : option mkey := find (present ls q) (everyone ls).
Definition material_of (o : option mkey) : option string := match o with Some (Mat m) => Some m | _ => None end.
(** Somebody passes from one cube to the other, and owns none of them *)
Definition hidden (ls : list layer) (a b : cube) (who : mkey) : Prop :=
  In who (everyone ls) /\ present ls a who = true /\ present ls b who = true /\ owner ls a <> Some who /\ owner ls b <> Some who.

(** ** Surfaces that are wanted between two cubes *)
(** The surface of a net in a material, seen from outside; or of one dielectric and another one.  [v] is the direction to the material, or to the first one. *)
Inductive wanted := Outer (net : string) (m : option string) (v : vec) | Interface (m m' : option string) (v : vec).
(** [v] is the direction from the second owner to the first *)
Definition between_owners (v : vec) (first second : option mkey) : list wanted :=
  if eqb first second then [] else
  match first, second with
  | Some (Net n), Some (Net n') => [Outer n None (opposite v); Outer n' None v]
  | Some (Net n), _ => [Outer n (material_of second) (opposite v)]
  | _, Some (Net n) => [Outer n (material_of first) v]
  | _, _ => [Interface (material_of first) (material_of second) v]
  end.
(** the same for a cube and the one above it; if two nets touch there is only the surface of the upper one *)
Definition below_above (below above : option mkey) : list wanted :=
  match below, above with
  | Some (Net n), Some (Net n') => if eqb n n' then [] else [Outer n' None down]
  | _, _ => between_owners down below above
  end.

(** ** Places *)
(** a point inside the face between two cubes, the one below and the one above *)
Inductive level_point (u : R) : corner -> cube -> cube -> Prop :=
  | LevelPoint x y k s t : 0 < s < 1 -> 0 < t < 1 -> level_point u ((IZR x + s) * u, (IZR y + t) * u, IZR k * u) ((x, y), (k - 1)%Z) ((x, y), k).
(** the same for cubes side by side, with the direction to the first one *)
Inductive wall_point (u : R) : corner -> vec -> cube -> cube -> Prop :=
  | WallX x y k s t : 0 < s < 1 -> 0 < t < 1 -> wall_point u (IZR x * u, (IZR y + s) * u, (IZR k + t) * u) (-1, 0, 0) (((x - 1)%Z, y), k) ((x, y), k)
  | WallY x y k s t : 0 < s < 1 -> 0 < t < 1 -> wall_point u ((IZR x + s) * u, IZR y * u, (IZR k + t) * u) (0, -1, 0) ((x, (y - 1)%Z), k) ((x, y), k).
(** a point inside a cube *)
Definition inner_point (u : R) (q : corner) : Prop :=
  exists x y k s t r, 0 < s < 1 /\ 0 < t < 1 /\ 0 < r < 1 /\ q = ((IZR x + s) * u, (IZR y + t) * u, (IZR k + r) * u).

(** ** Panels *)
(** the point with the weights [l], [m], [n] of the corners *)
Definition weighted (l m n : R) (f : facet) : corner :=
  let '((a, b, c), (a', b', c'), (a'', b'', c'')) := f in (l * a + m * a' + n * a'', l * b + m * b' + n * b'', l * c + m * c' + n * c'').
Definition inside (q : corner) (f : facet) : Prop := exists l m n, 0 < l /\ 0 < m /\ 0 < n /\ l + m + n = 1 /\ q = weighted l m n f.
Definition on_border (q : corner) (f : facet) : Prop := exists l m n, 0 <= l /\ 0 <= m /\ 0 <= n /\ l * m * n = 0 /\ l + m + n = 1 /\ q = weighted l m n f.
(** a panel of a net with the permittivity outside, or a panel between two dielectrics *)
Inductive view := OfNet (net : string) (q : panel * R) | Between (q : interface).
Definition views (cs : list conductor) (ds : list interface) : list view :=
  flat_map (fun c => map (OfNet (name c)) (surface c)) cs ++ map Between ds.
Definition facet_of (v : view) : facet := match v with OfNet _ q => fst (fst q) | Between q => fst (fst (fst q)) end.
(** the elements with a property *)
Inductive picks {A} (P : A -> Prop) : list A -> list A -> Prop :=
  | PickNone : picks P [] []
  | PickIt x l m : P x -> picks P l m -> picks P (x :: l) (x :: m)
  | PickNot x l m : ~ P x -> picks P l m -> picks P (x :: l) m.
Section Seen.
Variables (k_void : Qc) (permittivities : dict string Qc).
(** a panel at a right angle to [v], with the reference point in this direction *)
Definition looks (v : vec) (p : panel) : Prop := faces_to (fst p) v /\ in_front v p.
Definition shows (w : wanted) (x : view) : Prop :=
  match w, x with
  | Outer net m v, OfNet net' (p, k) => net' = net /\ looks v p /\ of_material k_void permittivities m k
  | Interface m m' v, Between (p, k, k') =>
      looks v p /\ of_material k_void permittivities m k /\ of_material k_void permittivities m' k' \/
      looks (opposite v) p /\ of_material k_void permittivities m' k /\ of_material k_void permittivities m k'
  | _, _ => False
  end.
(** The panels that [q] is in show what is wanted, one panel for each *)
Definition seen_at (q : corner) (cs : list conductor) (ds : list interface) (ws : list wanted) : Prop :=
  exists found found', picks (fun x => inside q (facet_of x)) (views cs ds) found /\ Permutation found found' /\ Forall2 shows ws found'.
End Seen.
Definition off_borders (q : corner) (cs : list conductor) (ds : list interface) : Prop := forall x, In x (views cs ds) -> ~ on_border q (facet_of x).

(** ** KLayout's triangles *)
(** a triangle of the grid at the height 0 *)
Definition flat (t : grid_tri) : facet := let '(a, b, c) := t in (level 1 0 a, level 1 0 b, level 1 0 c).
(** Each point of a unit square, except on sides of triangles, is in one triangle if the square is in the region, and in none otherwise *)
Definition covers (ts : list grid_tri) (r : list cell) : Prop :=
  forall x y s t, 0 < s < 1 -> 0 < t < 1 -> let q := (IZR x + s, IZR y + t, 0) in
    (forall g, In g ts -> ~ on_border q (flat g)) ->
    exists found, picks (fun g => inside q (flat g)) ts found /\ List.length found = if in_dec eq_dec (x, y) r then 1%nat else 0%nat.
Definition triangulates (delaunay : list cell -> list grid_tri) : Prop :=
  forall r, Forall cell_near r -> Forall tri_ok (delaunay r) /\ covers (delaunay r) r.

(** ** Names *)
Definition layer_named (l : layer) : Prop :=
  match l with Material m _ => unbroken m | Body (Net n) _ _ _ => n <> ""%string /\ unbroken n | Body (Mat m) _ _ _ => unbroken m end.
(** the permittivity of a material is the one of its last declaration *)
Definition values (ls : list layer) : dict string Qc :=
  fold_left (fun d l => match l with Material m k => dset d m k | _ => d end) ls [].

(** ** What C105 asks for *)
(** The database unit is [n / d]; KLayout triangulates exactly and rounds whole numbers to themselves; [square] is as exact as C's pow; no file name has a blank *)
Record environment (n d : Z) (delaunay : list cell -> list grid_tri) (along : grid_point -> plane -> Z) (square : float -> float) (prefix : string) (hash : string -> string) : Prop := {
  env_grid : grid_ok n d; env_triangles : triangulates delaunay; env_whole : whole_exact along; env_square : squares square;
  env_prefix : unbroken prefix; env_hash : forall x, unbroken (hash x) }.
(** The calls mean the layout [ls]: near the origin, with names without blanks, and with two names or more *)
Record layout_ok (n d : Z) (cs : list call) (ls : list layer) : Prop := {
  lay_means : Forall2 (means n d) cs ls; lay_near : Forall layer_near ls; lay_named : Forall layer_named ls; lay_two : (2 <= List.length (everyone ls))%nat }.
