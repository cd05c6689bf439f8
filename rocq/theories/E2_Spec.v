(** What a run of the 2.5D engine should put between two nets: the contributions of every
    polygon and every edge interval, stated with the notions of OV_Spec and SF_Spec. *)
From Coq Require Import String ZArith Permutation Sorted.
From Verif Require Import PyBase PyLib ER_Model ER_Spec.
From Verif Require OV_Model OV_Spec SF_Model SF_Spec LV_Model NX_Model NX_Spec.
Set Implicit Arguments.
Local Open Scope Qc_scope.

(** [l] is what the members of [xs] contribute together, in any order *)
Definition together {A} (P : A -> list report -> Prop) (xs : list A) (l : list report) : Prop :=
  exists ls, Forall2 P xs ls /\ Permutation l (List.concat ls).

Section Spec.
Context {pt : Type}.
Variables (area : OV_Model.region pt -> Qc) (dbu : Qc) (substrate : string).
Variables (overlaps sideoverlaps : dict string (dict string Qc)) (substrate_caps : list string).
Variable sidewalls : dict string (Qc * Qc).
Variable cut : SF_Model.spoly -> list SF_Model.spoly -> list SF_Model.spoly.
Variable fringe_cap : Z -> Z -> Z -> Qc -> Qc -> option Qc.
Variable shield_top : Z.
Variable names : list string.
Notation layer i := (nth i names EmptyString).
Notation neighbourhood := (dict nat (list SF_Model.spoly)).

(** * One polygon of layer [idx] against the polygons above it *)
Notation the_net idx c := (OV_Spec.bottom_net substrate (layer idx) (fst c)).
Notation above idx c := (OV_Spec.candidates (List.length names) idx (snd c) (the_net idx c)).
(** for every polygon above of another net, with a positive capacitance, one report: the area
    of the points which it covers first times the specified capacitance *)
Definition polygon_part (idx : nat) (c : OV_Model.poly pt * dict nat (list (OV_Model.poly pt))) (l : list report) : Prop :=
  exists which, StronglySorted lt which
    /\ (forall i, In i which <-> exists v, OV_Spec.worth area dbu overlaps names (layer idx) (OV_Model.p_points (fst c)) (above idx c) i v /\ 0 < v)
    /\ Forall2 (fun i r => exists k p v, nth_error (above idx c) i = Some (k, p)
                  /\ OV_Spec.worth area dbu overlaps names (layer idx) (OV_Model.p_points (fst c)) (above idx c) i v
                  /\ r = (OV_Model.p_net p, the_net idx c, v)) which l.
(** the tables have what is needed for it *)
Definition polygon_specified (idx : nat) (c : OV_Model.poly pt * dict nat (list (OV_Model.poly pt))) : Prop :=
  forall k p, In (k, p) (above idx c) -> exists v, OV_Spec.specified overlaps (layer k) (layer idx) v.

(** * One interval of an edge of layer [idx] *)
(** half of the sidewall capacitance to the nearest polygon of the same layer *)
Definition sidewall_part (idx : nat) (net : string) (iv : Z * Z) (pbc : neighbourhood) (l : list report) : Prop :=
  match dget pbc idx with
  | None => l = []
  | Some ps => exists p d y, SF_Spec.first_nearest ps d p /\ SF_Spec.is_lowest p y /\
      (net = SF_Model.sp_net p -> l = []) /\
      (net <> SF_Model.sp_net p -> exists c offset v, dget sidewalls (layer idx) = Some (c, offset) /\
         l = [(net, SF_Model.sp_net p, v)] /\
         Q2Qc 2 * v = (SF_Model.zq (snd iv - fst iv) * dbu) * c / (SF_Model.zq y * dbu + offset) / Q2Qc 1000)
  end.
(** the lateral shield: it starts at the edge of a nearest polygon of the same layer or the same polygon *)
Definition lateral_shield (idx : nat) (pbc : neighbourhood) (lateral : option SF_Model.spoly) : Prop :=
  match lateral with
  | None => forall p, ~ SF_Spec.laterals (List.length names) idx pbc p
  | Some l => exists p d x1 y1 x2 y2, SF_Spec.laterals (List.length names) idx pbc p /\ SF_Spec.distance p d
      /\ (forall q d', SF_Spec.laterals (List.length names) idx pbc q -> SF_Spec.distance q d' -> (d <= d')%Z)
      /\ SF_Model.nearest_edge p = Some ((x1, y1), (x2, y2))
      /\ SF_Model.sp_hull l = [(x2, y2); (x1, y1); (x1, shield_top); (x2, shield_top)]
  end.
(** the shield between layers [c] and [idx]: the lateral one and everything on layers between *)
Definition shield_of (idx : nat) (pbc : neighbourhood) (lateral : option SF_Model.spoly) (c : nat) (shield : list SF_Model.spoly) : Prop :=
  forall s, In s shield <-> lateral = Some s
            \/ exists j ps, SF_Spec.between c idx j /\ dget pbc j = Some ps /\ In s ps.
Definition edge_net (idx : nat) (net : string) : string := if eqb (layer idx) substrate then substrate else net.
(** every unshielded piece of the polygons of layer [c], with its fringe capacitance *)
Definition fringe_part (idx : nat) (net : string) (iv : Z * Z) (pbc : neighbourhood) (lateral : option SF_Model.spoly)
    (c : nat) (l : list report) : Prop :=
  exists ps shield oc sc, dget pbc c = Some ps /\ shield_of idx pbc lateral c shield /\
    SF_Spec.fringe_specified overlaps sideoverlaps substrate_caps (layer idx) (layer c) oc sc /\
    Permutation l
      (flat_map (fun e => match fringe_cap (snd iv - fst iv)%Z (SF_Spec.near (snd e)) (SF_Spec.far (snd e)) oc sc with
                          | Some v => if qltb (Q2Qc (1 # 10000)) v then [(edge_net idx net, fst e, v)] else []
                          | None => []
                          end)
         (SF_Spec.pieces cut substrate (edge_net idx net) (layer c) shield ps)).
(** the other layers with polygons *)
Definition other_layers (idx : nat) (pbc : neighbourhood) (cs : list nat) : Prop :=
  NoDup cs /\ forall c, In c cs <-> (c < List.length names)%nat /\ c <> idx /\ dget pbc c <> None.
Definition interval_part (idx : nat) (net : string) (x : (Z * Z) * neighbourhood) (l : list report) : Prop :=
  exists lateral cs l1 l2, sidewall_part idx net (fst x) (snd x) l1 /\ lateral_shield idx (snd x) lateral /\
    other_layers idx (snd x) cs /\ together (fringe_part idx net (fst x) (snd x) lateral) cs l2 /\ Permutation l (l1 ++ l2).
(** intervals of at most 1 dbu and those without any polygon are skipped *)
Definition counts (x : (Z * Z) * neighbourhood) : bool :=
  negb (match snd x with [] => true | _ => false end) && (1 <? snd (fst x) - fst (fst x))%Z.
Definition edge_part (idx : nat) (c : string * list ((Z * Z) * neighbourhood)) (l : list report) : Prop :=
  together (interval_part idx (fst c)) (filter counts (snd c)) l.

(** what must be there so that nothing is raised and no piece is dropped *)
Definition interval_specified (idx : nat) (net : string) (x : (Z * Z) * neighbourhood) : Prop :=
  SF_Spec.proper_nb (snd x) /\
  (forall k ps, dget (snd x) k = Some ps -> k = idx \/ k = List.length names ->
     ps <> [] /\ Forall (fun p => SF_Model.nearest_edge p <> None) ps) /\
  (forall ps p y, dget (snd x) idx = Some ps -> In p ps -> net <> SF_Model.sp_net p -> SF_Spec.is_lowest p y ->
     exists c offset, dget sidewalls (layer idx) = Some (c, offset) /\ SF_Model.zq y * dbu + offset <> 0) /\
  (forall c ps, (c < List.length names)%nat -> c <> idx -> dget (snd x) c = Some ps ->
     exists oc sc, SF_Spec.fringe_specified overlaps sideoverlaps substrate_caps (layer idx) (layer c) oc sc /\
       forall lateral shield e, lateral_shield idx (snd x) lateral -> shield_of idx (snd x) lateral c shield ->
         In e (SF_Spec.pieces cut substrate (edge_net idx net) (layer c) shield ps) ->
         (SF_Spec.near (snd e) < SF_Spec.far (snd e))%Z /\
         fringe_cap (snd (fst x) - fst (fst x))%Z (SF_Spec.near (snd e)) (SF_Spec.far (snd e)) oc sc <> None).

(** * The whole run *)
Variable polygons : nat -> list (OV_Model.poly pt * dict nat (list (OV_Model.poly pt))).
Variable edges : nat -> list (string * list ((Z * Z) * neighbourhood)).
Definition contributions (l : list report) : Prop :=
  exists l1 l2,
    together (fun idx => together (polygon_part idx) (polygons idx)) (seq 0 (List.length names)) l1 /\
    together (fun idx => together (edge_part idx) (edges idx)) (seq 0 (List.length names)) l2 /\
    Permutation l (l1 ++ l2).
Definition all_specified : Prop := forall idx, (idx < List.length names)%nat ->
  Forall (polygon_specified idx) (polygons idx) /\
  Forall (fun c => Forall (interval_specified idx (fst c)) (filter counts (snd c))) (edges idx).

(** the part of [all_specified] that is about the layout and not about the tables: proper
    polygons, no two shapes on top of each other on one layer, nothing beyond the substrate,
    no pieces without extent, and a defined fringe capacitance *)
Definition interval_sane (idx : nat) (net : string) (x : (Z * Z) * neighbourhood) : Prop :=
  SF_Spec.proper_nb (snd x) /\ layer idx <> substrate /\
  (forall k ps, dget (snd x) k = Some ps -> k = idx \/ k = List.length names ->
     ps <> [] /\ Forall (fun p => SF_Model.nearest_edge p <> None) ps) /\
  (forall ps p y c offset, dget (snd x) idx = Some ps -> In p ps -> net <> SF_Model.sp_net p -> SF_Spec.is_lowest p y ->
     dget sidewalls (layer idx) = Some (c, offset) -> SF_Model.zq y * dbu + offset <> 0) /\
  (forall c ps oc sc, (c < List.length names)%nat -> c <> idx -> dget (snd x) c = Some ps -> 0 < oc -> 0 < sc ->
     forall lateral shield e, lateral_shield idx (snd x) lateral -> shield_of idx (snd x) lateral c shield ->
         In e (SF_Spec.pieces cut substrate (edge_net idx net) (layer c) shield ps) ->
         (SF_Spec.near (snd e) < SF_Spec.far (snd e))%Z /\
         fringe_cap (snd (fst x) - fst (fst x))%Z (SF_Spec.near (snd e)) (SF_Spec.far (snd e)) oc sc <> None).
Definition all_sane : Prop := forall idx, (idx < List.length names)%nat ->
  Forall (fun c => Forall (interval_sane idx (fst c)) (filter counts (snd c))) (edges idx).
End Spec.

(** the capacitors of [l] (nets and value) are those of [reports]: one for each pair of nets
    with a report, with the sum of what was reported for the pair *)
Definition sums_of (reports : list report) (l : list (couple * Qc)) : Prop :=
  ForallOrdPairs (fun e e' => same_nets (fst (fst e)) (snd (fst e)) (fst (fst e')) (snd (fst e')) = false) l /\
  (forall a b v, In ((a, b), v) l -> mentioned reports a b /\ v = reported reports a b) /\
  (forall x y, mentioned reports x y -> exists a b v, In ((a, b), v) l /\ same_nets x y a b = true).
