(** What should not change the parasitics of a 2.5D run: the names of nets, and the order in
    which KLayout presents polygons, edges and intervals. *)
From Coq Require Import String ZArith Permutation.
From Verif Require Import PyBase PyLib ER_Model ER_Spec.
From Verif Require OV_Model SF_Model SF_Spec LV_Model NX_Model.

(** ** other names for the nets *)
Section Rename.
Variable f : string -> string.
(** different nets keep different names; the substrate, and shapes without a net, stay so *)
Definition good_names (substrate : string) : Prop := (forall x y, f x = f y -> x = y) /\ f substrate = substrate /\ f EmptyString = EmptyString.
Context {pt : Type}.
Definition named_poly (p : OV_Model.poly pt) : OV_Model.poly pt := OV_Model.Poly (f (OV_Model.p_net p)) (OV_Model.p_points p).
Definition named_spoly (p : SF_Model.spoly) : SF_Model.spoly := SF_Model.SPoly (f (SF_Model.sp_net p)) (SF_Model.sp_hull p).
Definition named_shape (s : LV_Model.shape) : LV_Model.shape := (fst s, f (snd s)).
(** the same with every polygon of a table *)
Definition in_table {K A B} (g : A -> B) (d : list (K * list A)) : list (K * list B) := map (fun e => (fst e, map g (snd e))) d.
Definition named_call (c : OV_Model.poly pt * dict nat (list (OV_Model.poly pt))) := (named_poly (fst c), in_table named_poly (snd c)).
Definition named_edge (c : string * list ((Z * Z) * dict nat (list SF_Model.spoly))) := (f (fst c), map (fun x => (fst x, in_table named_spoly (snd x))) (snd c)).
Definition named_network (n : rnetwork) : rnetwork := RNetwork (map (fun x => RNode (rn_id x) (f (rn_net x))) (rnet_nodes n)) (rnet_elements n).

(** [l] has the value [v] between [x] and [y] *)
Definition has (l : list (couple * Qc)) (x y : string) (v : Qc) : Prop := In ((x, y), v) l \/ In ((y, x), v) l.
(** [l'] is [l] with the other names *)
Definition named_pairs (l l' : list (couple * Qc)) : Prop :=
  forall u w v, has l' u w v <-> exists x y, u = f x /\ w = f y /\ has l x y v.
End Rename.

(** ** another order *)
(** the polygons of each layer in any order *)
Definition same_neighbors {A} (nb nb' : dict nat (list A)) : Prop :=
  forall k, match dget nb k, dget nb' k with Some ps, Some ps' => Permutation ps ps' | None, None => True | _, _ => False end.
(** polygons of one layer have no points in common *)
Definition layers_disjoint {pt} (nb : dict nat (list (OV_Model.poly pt))) : Prop :=
  forall k ps, dget nb k = Some ps -> ForallOrdPairs (fun p q => forall x, OV_Model.p_points p x = true -> OV_Model.p_points q x = true -> False) ps.
(** the same polygons in any order; where no two neighbours of a layer overlap, the neighbours
    of each layer in any order too *)
Definition same_polygons {pt} (l l' : list (OV_Model.poly pt * dict nat (list (OV_Model.poly pt)))) : Prop :=
  exists mid, Permutation l mid /\
    Forall2 (fun c c' => fst c = fst c' /\ (snd c = snd c' \/ layers_disjoint (snd c) /\ same_neighbors (snd c) (snd c'))) mid l'.
(** what is left of a neighbour beside any shield reaches away from the edge *)
Definition thick (cut : SF_Model.spoly -> list SF_Model.spoly -> list SF_Model.spoly) (p : SF_Model.spoly) : Prop :=
  forall shield q, In q (SF_Spec.unshielded cut shield p) -> (SF_Spec.near (SF_Model.sp_hull q) < SF_Spec.far (SF_Model.sp_hull q))%Z.
(** no two neighbours of the same layer (index [idx]), and no two parts of the same polygon
    (index [n]), are equally near *)
Definition no_ties (n idx : nat) (pbc : dict nat (list SF_Model.spoly)) : Prop :=
  forall k ps, In (k, ps) pbc -> k = idx \/ k = n ->
    Forall SF_Spec.proper ps /\ ForallOrdPairs (fun p q => forall d, SF_Spec.distance p d -> SF_Spec.distance q d -> False) ps.
(** the same interval; without ties and thin parts, the neighbours of each layer in any order *)
Definition same_interval cut (n idx : nat) (x x' : (Z * Z) * dict nat (list SF_Model.spoly)) : Prop :=
  fst x = fst x' /\
  (snd x = snd x' \/
   Forall2 (fun e e' => fst e = fst e' /\ Permutation (snd e) (snd e')) (snd x) (snd x') /\ no_ties n idx (snd x) /\
   forall k ps p, In (k, ps) (snd x) -> k <> idx -> (k < n)%nat -> In p ps -> thick cut p).
(** the same edges in any order, each with its intervals in any order *)
Definition same_edges cut (n idx : nat) (l l' : list (string * list ((Z * Z) * dict nat (list SF_Model.spoly)))) : Prop :=
  exists mid, Permutation l mid /\
    Forall2 (fun e e' => fst e = fst e' /\ exists m, Permutation (snd e) m /\ Forall2 (same_interval cut n idx) m (snd e')) mid l'.
(** no two pairs of nets have the same names up to case *)
Definition case_apart (l : list (couple * Qc)) : Prop :=
  forall x y v x' y' v', has l x y v -> has l x' y' v' -> casefold x = casefold x' -> casefold y = casefold y' -> x = x' /\ y = y'.

(** the devices of the netlist [nl'] in circuit [top] are some of the layout, then new capacitors
    with the nets and values [capl] and new resistors with those of [resl] *)
From Verif Require NX_Spec.
Definition adds (nl nl' : NX_Model.netlist) (top : string) (blackbox : bool) (capl resl : list (couple * Qc)) : Prop :=
  exists pre c post c' kept caps ress,
    NX_Model.circuits nl = pre ++ c :: post /\ NX_Model.c_name c = top /\ ~ In top (map NX_Model.c_name pre) /\
    NX_Model.circuits nl' = pre ++ c' :: post /\ NX_Model.c_devices c' = kept ++ caps ++ ress /\
    (blackbox = true -> kept = NX_Model.c_devices c) /\
    (blackbox = false -> forall d, In d kept <-> In d (NX_Model.c_devices c) /\ ~ NX_Spec.is_cap_device d) /\
    Forall2 (NX_Spec.represents c' NX_Model.CCapacitor "C") caps capl /\
    Forall2 (NX_Spec.represents c' NX_Model.CResistor "R") ress resl.
