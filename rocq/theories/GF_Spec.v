(** How FasterCap reads its input files, and which panels it should find: C104. *)
From Coq Require Import ZArith Reals Qreals String Ascii List Permutation.
From Verif Require Import PyBase PyLib FP_Model FP_Spec NF_Spec TG_Model TG_Spec ST_Spec.
From Verif Require FG_Spec.
From Verif Require Import NX_Model.
Import ListNotations.
Local Close Scope Qc_scope.
Local Open Scope string_scope.
Local Open Scope list_scope.
Local Open Scope R_scope.

(** ** Rows of words *)
Definition newline : ascii := ascii_of_nat 10.
Definition row_of (r : list string) : list (list string) := match r with [] => [] | _ => [r] end.
Fixpoint rows_from (r : list string) (w s : string) : list (list string) :=
  match s with
  | "" => row_of (r ++ ended w [])
  | String c t =>
      if Ascii.eqb c newline then row_of (r ++ ended w []) ++ rows_from [] "" t
      else if blank c then rows_from (r ++ ended w []) "" t
      else rows_from r (w ++ String c "")%string t
  end.
(** the words of each line that is not blank *)
Definition rows (text : string) : list (list string) := rows_from [] "" text.

(** ** Files of panels *)
(** the corners of a triangle, and the reference point on its outer side *)
Definition panel : Type := facet * corner.
(** T number, the coordinates of the corners, the coordinates of the reference point *)
Inductive panel_row (num : string) : list string -> panel -> Prop :=
  | PanelRow ws a1 a2 a3 b1 b2 b3 c1 c2 c3 r1 r2 r3 : Forall2 decimal ws [a1; a2; a3; b1; b2; b3; c1; c2; c3; r1; r2; r3] ->
      panel_row num ("T" :: num :: ws) (((a1, a2, a3), (b1, b2, b3), (c1, c2, c3)), (r1, r2, r3)).
(** panels with one number, and at the end perhaps a name for it: N number name *)
Inductive panel_rows (num : string) : list (list string) -> list panel -> option string -> Prop :=
  | NoName : panel_rows num [] [] None
  | Named name : panel_rows num [["N"; num; name]] [] (Some name)
  | OnePanel r p rest ps name : panel_row num r p -> panel_rows num rest ps name -> panel_rows num (r :: rest) (p :: ps) name.
(** a title that starts with 0, and at least one panel *)
Definition panels (text num : string) (ps : list panel) (name : option string) : Prop :=
  ps <> [] /\ exists title rest, rows text = ("0" :: title) :: rest /\ panel_rows num rest ps name.

(** ** The list of files *)
Section Files.
Variable fs : dict string string.
(** the panels of a conductor with the permittivity outside of each *)
Record conductor := Conductor { number : string; name : string; surface : list (panel * R) }.
(** a panel between two dielectrics, with the permittivity on the side of the reference point and on the other side *)
Definition interface : Type := panel * R * R.
Definition file (fn num : string) (ps : list panel) (name : option string) : Prop := exists text, dget fs fn = Some text /\ panels text num ps name.
(** C file permittivity 0 0 0 +: the conductor goes on in the next row; its number stays the same, and the name is in the last file *)
Inductive conductor_rows (num : string) : list (list string) -> list (panel * R) -> string -> Prop :=
  | LastFile fn k x ps name : file fn num ps (Some name) -> decimal k x ->
      conductor_rows num [["C"; fn; k; "0"; "0"; "0"]] (map (fun p => (p, x)) ps) name
  | MoreFiles fn k x ps rest qs name : file fn num ps None -> decimal k x -> conductor_rows num rest qs name ->
      conductor_rows num (["C"; fn; k; "0"; "0"; "0"; "+"] :: rest) (map (fun p => (p, x)) ps ++ qs) name.
Inductive list_rows : list (list string) -> list conductor -> list interface -> Prop :=
  | NoRows : list_rows [] [] []
  | CommentRow w ws rest cs ds : list_rows rest cs ds -> list_rows ((String "*" w :: ws) :: rest) cs ds
  | DielectricRow fn num k_out k_in x y r1 r2 r3 ps rest cs ds : file fn num ps None -> decimal k_out x -> decimal k_in y -> list_rows rest cs ds ->
      list_rows (["D"; fn; k_out; k_in; "0"; "0"; "0"; r1; r2; r3] :: rest) cs (map (fun p => (p, x, y)) ps ++ ds)
  | ConductorRows num g qs name rest cs ds : conductor_rows num g qs name -> list_rows rest cs ds ->
      list_rows (g ++ rest) (Conductor num name qs :: cs) ds.
(** FasterCap reads this from a list file *)
Definition reads (lst : string) (cs : list conductor) (ds : list interface) : Prop := exists text, dget fs lst = Some text /\ list_rows (rows text) cs ds.
End Files.

(** ** What it should read *)
Definition dot (u v : vec) : R := let '(a, b, c) := u in let '(x, y, z) := v in a * x + b * y + c * z.
(** The reference point is about one micrometre in front of the panel, seen from each of its corners. *)
Definition in_front (v : vec) (p : panel) : Prop :=
  let '((a, b, c), r) := p in forall q, In q [a; b; c] -> 9 / 10 <= dot (minus r q) v <= 11 / 10.
Section Layout.
Variables (u : R) (k_void : Qc) (permittivities : dict string Qc).
(** the permittivity of a material, or of the void, up to twelve digits *)
Definition of_material (m : option string) (x : R) : Prop := exists k, FG_Spec.permittivity k_void permittivities m k /\ close (Q2R k) x.
(** the panel of a triangle of KLayout that faces [v] *)
Definition panel_at (place : grid_point -> corner) (v : vec) (g : grid_tri) (p : panel) : Prop := facet_at place v g (fst p) /\ in_front v p.
(** a height is read up to twelve digits; a line of the grid, up to rounding errors, exactly *)
Definition height_read (z : float) (z' : R) : Prop :=
  close (val z) z' /\ forall k, near_origin k -> Rabs (val z - IZR k * u) <= 4 / 10 ^ 13 * Rabs (IZR k * u) -> z' = IZR k * u.
(** the panels of a surface at the height [z], or over an edge *)
Definition level_panels (z : float) (v : vec) (ts : list grid_tri) (ps : list panel) : Prop := exists z', height_read z z' /\ Forall2 (panel_at (level u z') v) ts ps.
Definition wall_panels (e : edge) (v : vec) (ts : list grid_tri) (ps : list panel) : Prop := Forall2 (panel_at (wall u e) v) ts ps.
(** The panels of a surface of a conductor face out of it and have the permittivity of the material there. *)
Definition cond_panels (s : cond_surface) (qs : list (panel * R)) : Prop :=
  Forall (fun q => of_material (snd (net_and_outside s)) (snd q)) qs /\
  match s with
  | HCondIn _ _ z ts | HCondOut _ _ z ts => level_panels z (cond_side s) ts (map fst qs)
  | VCond _ _ e ts => wall_panels e (cond_side s) ts (map fst qs)
  end.
(** from one material of a surface of dielectrics, to the other one, and the direction to the first *)
Definition between (s : diel_surface) (m m' : option string) (v : vec) : Prop :=
  (m, m') = materials s /\ v = diel_side s \/ (m', m) = materials s /\ v = opposite (diel_side s).
(** The panels of a surface between two dielectrics all face the same one; each permittivity is the one of the material on its side. *)
Definition diel_panels (s : diel_surface) (qs : list interface) : Prop :=
  exists m m' v, between s m m' v /\ Forall (fun q => of_material m (snd (fst q)) /\ of_material m' (snd q)) qs /\
  match s with
  | HDiel _ _ z ts => level_panels z v ts (map (fun q => fst (fst q)) qs)
  | VDiel _ _ e ts => wall_panels e v ts (map (fun q => fst (fst q)) qs)
  end.
(** the panels of the surfaces, in any order *)
Definition made_from {A B} (shown : A -> list B -> Prop) (l : list A) (ps : list B) : Prop :=
  exists pss, Forall2 shown l pss /\ Permutation ps (concat pss).
(** one conductor for each net that has a surface, made of its surfaces; and all surfaces between dielectrics *)
Definition whole_layout (dl : list diel_surface) (cl : list cond_surface) (cs : list conductor) (ds : list interface) : Prop :=
  NoDup (map name cs) /\ NoDup (map number cs) /\ (forall net, In net (map name cs) <-> has_net net cl) /\
  (forall c, In c cs -> made_from cond_panels (filter (of_net (name c)) cl) (surface c)) /\
  made_from diel_panels dl ds.
End Layout.
(** ** Names *)
(** without spaces, tabs and ends of lines *)
Definition unbroken (s : string) : Prop := forall a c b, s = (a ++ String c b)%string -> blank c = false.
Definition names_ok (prefix : string) (hash : string -> string) (dl : list diel_surface) (cl : list cond_surface) : Prop :=
  unbroken prefix /\ (forall n, unbroken (hash n)) /\
  (forall s m, In s dl -> fst (materials s) = Some m \/ snd (materials s) = Some m -> unbroken m) /\
  (forall s, In s cl -> net_of s <> "" /\ unbroken (net_of s)) /\
  (forall s m, In s cl -> snd (net_and_outside s) = Some m -> unbroken m).
(** ** When the files can be written *)
Definition slash_free (s : string) : Prop := forall a b, s <> (a ++ "/" ++ b)%string.
Definition no_slashes (prefix : string) (hash : string -> string) (dl : list diel_surface) (cl : list cond_surface) : Prop :=
  slash_free prefix /\ (forall n, slash_free (hash n)) /\
  (forall s m, In s dl -> fst (materials s) = Some m \/ snd (materials s) = Some m -> slash_free m) /\
  (forall s, In s cl -> slash_free (net_of s)) /\
  (forall s m, In s cl -> snd (net_and_outside s) = Some m -> slash_free m).
Definition all_declared (permittivities : dict string Qc) (dl : list diel_surface) (cl : list cond_surface) : Prop :=
  (forall s m, In s dl -> fst (materials s) = Some m \/ snd (materials s) = Some m -> In m (dkeys permittivities)) /\
  (forall s m, In s cl -> snd (net_and_outside s) = Some m -> In m (dkeys permittivities)).
Definition shown_as (m : option string) : string := match m with None | Some "" => "(void)" | Some m => m end.
(** [limit] leaves room for prefix, number and materials, and for 24 more characters, which are for the name of the net *)
Definition room (limit : nat) (prefix : string) (dl : list diel_surface) (cl : list cond_surface) : Prop :=
  (String.length (prefix ++ ".lst") <= limit)%nat /\ forall k, (k <= List.length dl + List.length cl)%nat ->
  (forall s, In s dl -> (String.length (prefix ++ nat_str k ++ "_outside=" ++ shown_as (fst (materials s)) ++ "_inside=" ++ shown_as (snd (materials s)) ++ ".geo") <= limit)%nat) /\
  (forall s, In s cl -> (String.length (prefix ++ nat_str k ++ "_outside=" ++ shown_as (snd (net_and_outside s)) ++ "_net=" ++ ".geo") + 24 <= limit)%nat).
