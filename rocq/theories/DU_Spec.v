(** The same layout in a database unit [k] times finer: every coordinate is [k] times as large. *)
From Coq Require Import String ZArith.
From Verif Require Import PyBase PyLib.
From Verif Require OV_Model SF_Model LV_Model.
From Verif Require Import SY_Spec.

Section Finer.
Variable k : Z.
Definition finer_point (q : Z * Z) : Z * Z := (k * fst q, k * snd q)%Z.
(** a polygon beside an edge, with the edge as x axis *)
Definition finer_spoly (p : SF_Model.spoly) : SF_Model.spoly := SF_Model.SPoly (SF_Model.sp_net p) (map finer_point (SF_Model.sp_hull p)).
(** a polygon of the layout *)
Definition finer_shape (s : LV_Model.shape) : LV_Model.shape :=
  (LV_Model.Poly (map finer_point (LV_Model.hull (fst s))) (map (map finer_point) (LV_Model.holes (fst s))), snd s).
(** an edge with the intervals along it and the polygons beside each *)
Definition finer_edge (c : string * list ((Z * Z) * dict nat (list SF_Model.spoly))) := (fst c, map (fun x => (finer_point (fst x), in_table finer_spoly (snd x))) (snd c)).
End Finer.

(** no interval with something beside it is exactly one database unit long *)
Definition no_unit_interval (c : string * list ((Z * Z) * dict nat (list SF_Model.spoly))) : Prop :=
  forall a b pbc, In ((a, b), pbc) (snd c) -> pbc <> [] -> (b - a <> 1)%Z.
