(** Adding shapes of new nets far from everything else. *)
From Coq Require Import String ZArith Permutation.
From Verif Require Import PyBase PyLib ER_Model.
From Verif Require OV_Model SF_Model.

Section Local.
(** which nets are new *)
Variable new : string -> bool.
Variables (names : list string) (substrate : string).
Context {pt : Type}.

(** the polygons of one layer of a neighbourhood *)
Definition layer_of {A} (nb : dict nat (list A)) (k : nat) : list A := match dget nb k with Some ps => ps | None => [] end.
(** [q] has no point in common with any polygon of a neighbourhood *)
Definition apart_from (nb : dict nat (list (OV_Model.poly pt))) (q : OV_Model.poly pt) : Prop :=
  forall k p x, In p (layer_of nb k) -> OV_Model.p_points p x = true -> OV_Model.p_points q x = true -> False.
(** the second list is the first with new polygons somewhere between *)
Inductive grows (far : OV_Model.poly pt -> Prop) : list (OV_Model.poly pt) -> list (OV_Model.poly pt) -> Prop :=
| grows_nil : grows far [] []
| grows_old p l l' : grows far l l' -> grows far (p :: l) (p :: l')
| grows_new q l l' : new (OV_Model.p_net q) = true -> far q -> grows far l l' -> grows far l (q :: l').
(** the same polygon, perhaps larger where there was nothing near it (the substrate), with new
    neighbours apart from the old ones *)
Definition grown_call (c c' : OV_Model.poly pt * dict nat (list (OV_Model.poly pt))) : Prop :=
  OV_Model.p_net (fst c') = OV_Model.p_net (fst c) /\
  (forall k p x, In p (layer_of (snd c) k) -> OV_Model.p_points p x = true -> OV_Model.p_points (fst c') x = OV_Model.p_points (fst c) x) /\
  forall k, grows (apart_from (snd c)) (layer_of (snd c) k) (layer_of (snd c') k).
(** a polygon of a new net, or one with nothing but new nets near it *)
Definition new_call (idx : nat) (c : OV_Model.poly pt * dict nat (list (OV_Model.poly pt))) : Prop :=
  (nth idx names EmptyString <> substrate /\ new (OV_Model.p_net (fst c)) = true) \/
  (forall k p, In p (layer_of (snd c) k) -> new (OV_Model.p_net p) = true).
(** the same for an edge; on the substrate layer nets do not count *)
Definition new_edge (idx : nat) (c : string * list ((Z * Z) * dict nat (list SF_Model.spoly))) : Prop :=
  (nth idx names EmptyString <> substrate /\ new (fst c) = true) \/
  (forall iv pbc k ps p, In (iv, pbc) (snd c) -> In (k, ps) pbc -> (k < List.length names)%nat -> In p ps ->
     nth k names EmptyString <> substrate /\ new (SF_Model.sp_net p) = true).
Definition grown_polygons (idx : nat) (l l' : list (OV_Model.poly pt * dict nat (list (OV_Model.poly pt)))) : Prop :=
  exists mid extra, Permutation l' (mid ++ extra) /\ Forall2 grown_call l mid /\ Forall (new_call idx) extra.
(** the edges there were see nothing new *)
Definition grown_edges (idx : nat) (l l' : list (string * list ((Z * Z) * dict nat (list SF_Model.spoly)))) : Prop :=
  exists extra, Permutation l' (l ++ extra) /\ Forall (new_edge idx) extra.
Definition new_network (n : rnetwork) : Prop := forall x, In x (rnet_nodes n) -> new (rn_net x) = true.
End Local.
