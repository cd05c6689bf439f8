(** Directions, chains of edges and closed edge sets, on integer points. *)
From Coq Require Import List ZArith.
From Verif Require Import PyBase CK_Model.
Local Open Scope Z_scope.

(** the vector from [a] to [b] is a positive multiple of the vector from [c] to [d]: both edges
    are proper and have the same direction *)
Definition same_direction (c d a b : pnt) : Prop :=
  a <> b /\ exists m n, 0 < m /\ 0 < n /\
    m * (px b - px a) = n * (px d - px c) /\ m * (py b - py a) = n * (py d - py c) /\ m * (pz b - pz a) = n * (pz d - pz c).

(** [chain S c d a b]: edges of [S] lead from [a] to [b], head to tail, all in the direction of (c, d) *)
Inductive chain (S : list edge) (c d : pnt) : pnt -> pnt -> Prop :=
  | chain_end a : chain S c d a a
  | chain_edge a x b : In (a, x) S -> same_direction c d a x -> chain S c d x b -> chain S c d a b.

(** [x, y] is a sub-edge of the edge (c, d) in the same direction *)
Definition reaches (c d a b : pnt) : Prop := a = b \/ same_direction c d a b.
Definition sub_edge (x y c d : pnt) : Prop := same_direction c d x y /\ reaches c d c x /\ reaches c d y d.

(** every proper edge is part of a straight chain of edges that also runs back, possibly with
    other intermediate points (T junctions) *)
Definition closed_up_to_T (E : list edge) : Prop := forall p q, In (p, q) E -> p <> q ->
  exists a b, chain E p q a p /\ chain E p q q b /\ chain E q p b a.

(** how often a piece of a line is run over in its direction *)
Definition covering (x y : pnt) (e : edge) : bool :=
  let u := psub (snd e) (fst e) in
  let on p := (sq (cross u (psub p (fst e))) =? 0) && (0 <=? dot u (psub p (fst e))) && (dot u (psub p (fst e)) <=? sq u) in
  on x && on y && (0 <? dot u (psub y x)).
Definition coverage (x y : pnt) (E : list edge) : nat := length (filter (covering x y) E).
