(** Triangles as point sets, independent of the code. *)
From Coq Require Qcabs.
From Verif Require Import PyBase Tri_Model.
Set Implicit Arguments.
Local Open Scope Qc_scope.

(** [q] is the convex combination a*A + b*B + c*C *)
Definition combination (t : qpt * qpt * qpt) (a b c : Qc) (q : qpt) : Prop :=
  let '(A, B, C) := t in
  a + b + c = 1 /\ fst q = a * fst A + b * fst B + c * fst C /\ snd q = a * snd A + b * snd B + c * snd C.
(** [q] lies in the closed triangle *)
Definition in_tri (t : qpt * qpt * qpt) (q : qpt) : Prop :=
  exists a b c, 0 <= a /\ 0 <= b /\ 0 <= c /\ combination t a b c q.
(** [q] lies in the open triangle *)
Definition inside_tri (t : qpt * qpt * qpt) (q : qpt) : Prop :=
  exists a b c, 0 < a /\ 0 < b /\ 0 < c /\ combination t a b c q.
(** twice the signed area *)
Definition area2 (t : qpt * qpt * qpt) : Qc :=
  let '(A, B, C) := t in
  (fst B - fst A) * (snd C - snd A) - (snd B - snd A) * (fst C - fst A).
(** the triangles of the list cover exactly [t] and do not overlap *)
Definition tiles (l : list (qpt * qpt * qpt)) (t : qpt * qpt * qpt) : Prop :=
  (forall q, in_tri t q <-> exists u, In u l /\ in_tri u q) /\
  (forall i j u w q, i <> j -> nth_error l i = Some u -> nth_error l j = Some w ->
     inside_tri u q -> ~ in_tri w q).
(** the angle at corner k is obtuse: the two legs have a negative scalar product *)
Definition obtuse (t : qpt * qpt * qpt) (k : nat) : Prop :=
  let P := corner t k in
  sprod (psub (corner t ((k + 1) mod 3)) P) (psub (corner t ((k + 2) mod 3)) P) < 0.
Definition integral (t : qpt * qpt * qpt) : Prop :=
  forall k, exists x y : Z, corner t k = (Q2Qc (inject_Z x), Q2Qc (inject_Z y)).
(** the squared distance of two points *)
Definition dist2 (a b : qpt) : Qc := (fst a - fst b) * (fst a - fst b) + (snd a - snd b) * (snd a - snd b).
(** the side from corner i to the next one is clearly too long for a right angle at the third corner *)
Definition stretched (t : qpt * qpt * qpt) (i : nat) : Prop :=
  let A := corner t i in let B := corner t ((i + 1) mod 3) in let C := corner t ((i + 2) mod 3) in
  dist2 B C + dist2 C A < dist2 A B * (1 - Q2Qc (1 # 10000000000)).
Definition grid_point (q : qpt) : Prop := exists x y : Z, q = (Q2Qc (inject_Z x), Q2Qc (inject_Z y)).
(** each coordinate is half a unit away or less *)
Definition next_to (q r : qpt) : Prop := Qcabs.Qcabs (fst q - fst r) <= Q2Qc (1 # 2) /\ Qcabs.Qcabs (snd q - snd r) <= Q2Qc (1 # 2).
Definition along_axis (a b : qpt) : Prop := fst a = fst b \/ snd a = snd b.
