(** Nearest polygons, layers in between, and what an edge interval should contribute. *)
From Coq Require Import String ZArith Permutation.
From Verif Require Import PyBase PyLib ER_Model SF_Model.
Set Implicit Arguments.
Local Open Scope Z_scope.

(** distance of a polygon from the edge (which lies on y = 0): its lowest point, but at least 0 *)
Definition is_lowest (p : spoly) (y : Z) : Prop :=
  (exists x, In (x, y) (sp_hull p)) /\ (forall q, In q (sp_hull p) -> y <= snd q).
Definition is_highest (p : spoly) (y : Z) : Prop :=
  (exists x, In (x, y) (sp_hull p)) /\ (forall q, In q (sp_hull p) -> snd q <= y).
Definition distance (p : spoly) (d : Z) : Prop := exists y, is_lowest p y /\ d = Z.max 0 y.

(** [p] at distance [d] is the first polygon of [l] with the smallest distance *)
Definition first_nearest (l : list spoly) (d : Z) (p : spoly) : Prop :=
  distance p d /\
  exists before after, l = (before ++ p :: after)%list
    /\ (forall q, In q before -> forall d', distance q d' -> d < d')
    /\ (forall q, In q after -> forall d', distance q d' -> d <= d').

(** layers strictly between *)
Definition between (i k j : nat) : Prop := (i < j < k)%nat \/ (k < j < i)%nat.

(** proper polygons have points *)
Definition proper (p : spoly) : Prop := sp_hull p <> [].
Definition proper_nb (pbc : dict nat (list spoly)) : Prop :=
  dwf pbc /\ forall k ps, dget pbc k = Some ps -> Forall proper ps.

(** the polygons which can shield laterally: same layer (index [inside]) and same polygon (index [n]) *)
Definition laterals (n inside : nat) (pbc : dict nat (list spoly)) (p : spoly) : Prop :=
  exists k ps, (k = inside \/ k = n) /\ dget pbc k = Some ps /\ In p ps.

Definition fringes (evs : list event) : list (nat * list spoly * list spoly * option spoly) :=
  flat_map (fun e => match e with EvFringe c ps sh l => [(c, ps, sh, l)] | _ => [] end) evs.
Definition sidewalls_of (evs : list event) : list spoly :=
  flat_map (fun e => match e with EvSidewall p => [p] | _ => [] end) evs.

Section Caps.
Local Open Scope Qc_scope.
Variable cut : spoly -> list spoly -> list spoly.
(** the unshielded parts of a polygon *)
Definition unshielded (shield : list spoly) (p : spoly) : list spoly :=
  match shield with [] => [p] | _ => cut p shield end.
Variable fringe_cap : Z -> Z -> Z -> Qc -> Qc -> option Qc.
Variables (substrate ins_layer ins_net out_layer : string) (shield : list spoly) (len : Z) (oc sc : Qc).

(** the net (and hull) of every unshielded part of the polygons of other nets; on the
    substrate layer everything belongs to the substrate net *)
Definition outside_net (p : spoly) : string := if eqb out_layer substrate then substrate else sp_net p.
Definition pieces (polys : list spoly) : list (string * list (Z * Z)) :=
  flat_map (fun p => if eqb ins_net (outside_net p) then []
                     else map (fun q => (outside_net p, sp_hull q)) (unshielded shield p)) polys.
(** distances from the edge, see [bounding_box] in SF_Props.v *)
Definition near (h : list (Z * Z)) : Z := Z.max 0 (bbox_lo (SPoly EmptyString h)).
Definition far (h : list (Z * Z)) : Z := Z.max 0 (bbox_hi (SPoly EmptyString h)).
(** the cap of one piece: none below 0.0001 fF *)
Definition cap_of (e : string * list (Z * Z)) : list sideoverlap_cap :=
  match fringe_cap len (near (snd e)) (far (snd e)) oc sc with
  | Some v => if qltb (Q2Qc (1 # 10000)) v then [SideOverlapCap (ins_layer, ins_net, out_layer, fst e) v] else []
  | None => []
  end.
(** pieces with no extent away from the edge *)
Definition thin (e : string * list (Z * Z)) : bool := Z.eqb (far (snd e)) (near (snd e)).
Fixpoint until_thin (l : list (string * list (Z * Z))) : list (string * list (Z * Z)) :=
  match l with [] => [] | e :: t => if thin e then [] else e :: until_thin t end.
End Caps.

(** the specifications needed for a fringe from [ins] to [out] *)
Definition fringe_specified (overlaps sideoverlaps : dict string (dict string Qc)) (substrate_caps : list string)
    (ins out : string) (oc sc : Qc) : Prop :=
  (exists t, dget overlaps ins = Some t /\
     (dget t out = Some oc \/
      dget t out = None /\ exists t', dget overlaps out = Some t' /\ dget t' ins = Some oc)) /\
  In ins substrate_caps /\
  (exists t, dget sideoverlaps ins = Some t /\ dget t out = Some sc).
