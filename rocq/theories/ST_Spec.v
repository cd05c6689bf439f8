(** What STL files mean, and which facets the bodies of a layout should have: C101. *)
From Coq Require Import ZArith Reals String Ascii List Permutation.
From Verif Require Import PyBase FP_Model FP_Spec NF_Spec TG_Model TG_Spec.
Import ListNotations.
Local Close Scope Qc_scope.
Local Open Scope string_scope.
Local Open Scope list_scope.
Local Open Scope R_scope.

(** ** Reading an STL text *)
(** spaces, tabs and ends of lines are between words *)
Definition blank (c : ascii) : bool := Ascii.eqb c " " || Ascii.eqb c (ascii_of_nat 9) || Ascii.eqb c (ascii_of_nat 10) || Ascii.eqb c (ascii_of_nat 13).
Definition ended (w : string) (l : list string) : list string := if String.eqb w "" then l else w :: l.
Fixpoint words_from (w s : string) : list string :=
  match s with
  | "" => ended w []
  | String c t => if blank c then ended w (words_from "" t) else words_from (w ++ String c "")%string t
  end.
Definition words (s : string) : list string := words_from "" s.
(** a facet is its corners in their order *)
Definition corner : Type := R * R * R.
Definition facet : Type := corner * corner * corner.
Inductive vertex : list string -> corner -> Prop :=
  | Vertex a b c x y z : decimal a x -> decimal b y -> decimal c z -> vertex ["vertex"; a; b; c] (x, y, z).
Inductive facets (name : string) : list string -> list facet -> Prop :=
  | NoMore : facets name ["endsolid"; name] []
  | Facet nx ny nz X Y Z a b c p q r rest fs : decimal nx X -> decimal ny Y -> decimal nz Z -> vertex a p -> vertex b q -> vertex c r -> facets name rest fs ->
      facets name (["facet"; "normal"; nx; ny; nz; "outer"; "loop"] ++ a ++ b ++ c ++ ["endloop"; "endfacet"] ++ rest) ((p, q, r) :: fs).
Definition stl (text : string) (fs : list facet) : Prop := exists name rest, words text = "solid" :: name :: rest /\ facets name rest fs.

(** ** Geometry *)
Definition minus (p q : corner) : vec := let '(a, b, c) := p in let '(x, y, z) := q in (a - x, b - y, c - z).
Definition cross (u v : vec) : vec := let '(a, b, c) := u in let '(x, y, z) := v in (b * z - c * y, c * x - a * z, a * y - b * x).
(** By the right-hand rule, which STL readers use if the normal is 0 0 0, the facet faces this direction *)
Definition faces_to (f : facet) (v : vec) : Prop :=
  let '(p, q, r) := f in let '(x, y, z) := v in exists k, 0 < k /\ cross (minus q p) (minus r p) = (k * x, k * y, k * z).
(** a facet with the corners of a triangle of KLayout, each in its place, that faces [v] *)
Definition facet_at (place : grid_point -> corner) (v : vec) (g : grid_tri) (f : facet) : Prop :=
  let '(a, b, c) := g in let '(p, q, r) := f in Permutation [p; q; r] [place a; place b; place c] /\ faces_to f v.
(** the facets of one surface that is triangulated to [ts]; one facet per triangle *)
Definition surface_at (place : grid_point -> corner) (v : vec) (ts : list grid_tri) (fs : list facet) : Prop := Forall2 (facet_at place v) ts fs.
(** A grid point at a height, and a point of the wall over an edge, with the length [u] of the database unit *)
Definition level (u : R) (z : R) (g : grid_point) : corner := (IZR (fst g) * u, IZR (snd g) * u, z).
Definition wall (u : R) (e : edge) (q : grid_point) : corner := let '(x, y, z) := on_wall e q in (IZR x * u, IZR y * u, IZR z * u).
(** A horizontal surface is at the height [z], up to twelve digits *)
Definition horizontal (u : R) (z : float) (v : vec) (ts : list grid_tri) (fs : list facet) : Prop :=
  exists z', close (val z) z' /\ surface_at (level u z') v ts fs.

(** the facets of a surface of a conductor that face out of it, or into it *)
Definition cond_facets (u : R) (out : vec -> vec) (s : cond_surface) (fs : list facet) : Prop :=
  match s with
  | HCondIn _ _ z ts | HCondOut _ _ z ts => horizontal u z (out (cond_side s)) ts fs
  | VCond _ _ e ts => surface_at (wall u e) (out (cond_side s)) ts fs
  end.
Definition outwards (v : vec) : vec := v.
Definition inwards (v : vec) : vec := opposite v.
(** the facets of a surface of a dielectric that face away from the material [m] on one side of it *)
Definition diel_facets (u : R) (m : string) (s : diel_surface) (fs : list facet) : Prop :=
  exists v, towards s (Some m) v /\
  match s with
  | HDiel _ _ z ts => horizontal u z (opposite v) ts fs
  | VDiel _ _ e ts => surface_at (wall u e) (opposite v) ts fs
  end.

(** ** Which surfaces a body has *)
Definition net_of (s : cond_surface) : string := fst (net_and_outside s).
Definition of_net (n : string) (s : cond_surface) : bool := String.eqb (net_of s) n.
Definition is_material (m : string) (o : option string) : bool := match o with Some x => String.eqb x m | None => false end.
Definition touches (m : string) (s : diel_surface) : bool := is_material m (fst (materials s)) || is_material m (snd (materials s)).
Definition around (m : string) (s : cond_surface) : bool := is_material m (snd (net_and_outside s)).
(** The facets are those of the surfaces, in any order *)
Definition made_of {A} (shown : A -> list facet -> Prop) (l : list A) (fs : list facet) : Prop :=
  exists fss, Forall2 shown l fss /\ Permutation fs (concat fss).

(** ** Layouts *)
(** On the grid with the unit n / d, coordinates up to a few millimetres have at most twelve digits. *)
Definition grid_ok (n d : Z) : Prop :=
  (0 < n)%Z /\ short n d /\ unit_ok (lit n d) /\ forall k, near_origin k -> twelve_digits (IZR k * (IZR n / IZR d)).
(** the triangles that KLayout makes of a surface *)
Definition cond_triangles (s : cond_surface) : list grid_tri := match s with HCondIn _ _ _ ts | HCondOut _ _ _ ts | VCond _ _ _ ts => ts end.
Definition diel_triangles (s : diel_surface) : list grid_tri := match s with HDiel _ _ _ ts | VDiel _ _ _ ts => ts end.
(** the net, or the material, has a surface *)
Definition has_net (net : string) (l : list cond_surface) : Prop := exists s g, In s l /\ net_of s = net /\ In g (cond_triangles s).
Definition has_material (m : string) (dl : list diel_surface) (cl : list cond_surface) : Prop :=
  (exists s g, In s dl /\ touches m s = true /\ In g (diel_triangles s)) \/ (exists s g, In s cl /\ around m s = true /\ In g (cond_triangles s)).
(** no surface lies between a material and the same material *)
Definition two_materials (s : diel_surface) : Prop := fst (materials s) <> snd (materials s).
(** ** Names of files *)
Definition stl_name (prefix kind body : string) : string := (prefix ++ kind ++ "_" ++ body ++ ".stl")%string.
