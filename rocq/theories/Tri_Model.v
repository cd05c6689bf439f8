(** Model of ResistorNetwork.is_skinny_tri and expand_skinny_tris
    (klayout_pex/rcx25/r/resistor_network.py L69-100).  Triangle corners are integer
    points (kdb.Point).  Floats are kept exact; KLayout's [Vector * float] rounds each
    coordinate to the database grid. *)
From Coq Require Import Qround.
From Verif Require Import PyBase.
Set Implicit Arguments.
Local Open Scope Qc_scope.

(** kdb.Point and kdb.Vector, resistor_network.py L72-74 *)
Definition qpt := (Qc * Qc)%type.
(** Point - Point, resistor_network.py L76-78 *)
Definition psub (a b : qpt) : qpt := (fst a - fst b, snd a - snd b).
(** Point + Vector, resistor_network.py L98 *)
Definition padd (a b : qpt) : qpt := (fst a + fst b, snd a + snd b).
(** a vector times a factor before rounding, resistor_network.py L98 *)
Definition pscale (a : qpt) (t : Qc) : qpt := (fst a * t, snd a * t).
(** KLayout rounds a coordinate to the nearest whole number, halves away from zero; for Vector * float, resistor_network.py L98 *)
Definition rounded (x : Qc) : Z := if qltb 0 x then Qfloor (this (x + Q2Qc (1 # 2))) else Qceiling (this (x - Q2Qc (1 # 2))).
(** Vector * float, resistor_network.py L98 *)
Definition vector_times (a : qpt) (t : Qc) : qpt := (Q2Qc (inject_Z (rounded (fst a * t))), Q2Qc (inject_Z (rounded (snd a * t)))).
(** Vector.sprod, resistor_network.py L98 *)
Definition sprod (a b : qpt) : Qc := fst a * fst b + snd a * snd b.
(** Vector.sq_length, resistor_network.py L76-78 *)
Definition sq_length (a : qpt) : Qc := sprod a a.

(** pts[k], k in 0..2, resistor_network.py L72-74 *)
Definition corner (t : qpt * qpt * qpt) (k : nat) : qpt :=
  let '(a, b, c) := t in match k with 0%nat => a | 1%nat => b | _ => c end.

(** the condition of L80 for index i: [l0 + l1 < lm1 * (1.0 - 1e-10)] *)
Definition long_side (t : qpt * qpt * qpt) (i : nat) : bool :=
  let pm1 := corner t i in
  let p0 := corner t ((i + 1) mod 3) in
  let p1 := corner t ((i + 2) mod 3) in
  let lm1 := sq_length (psub p0 pm1) in
  let l0 := sq_length (psub p1 p0) in
  let l1 := sq_length (psub pm1 p1) in
  qltb (l0 + l1) (lm1 * (1 - Q2Qc (1 # 10000000000))).

(** is_skinny_tri, L70-83: returns [i != 0], a bool, not the index *)
Definition is_skinny_tri (t : qpt * qpt * qpt) : option bool :=
  if long_side t 0 then Some false
  else if long_side t 1 then Some true
  else if long_side t 2 then Some true
  else None.

(** a Python bool used as an index, resistor_network.py L93-95 *)
Definition bool_index (b : bool) : nat := if b then 1%nat else 0%nat.

(** expand_skinny_tris, resistor_network.py L86-100.  Not modelled: kdb.Polygon drops corners of a triangle without area. *)
Definition expand_skinny_tris (t : qpt * qpt * qpt) : list (qpt * qpt * qpt) :=
  match is_skinny_tri t with
  | None => [t]
  | Some b =>
      let i := bool_index b in
      let pm1 := corner t i in
      let p0 := corner t ((i + 1) mod 3) in
      let p1 := corner t ((i + 2) mod 3) in
      let lm1 := sq_length (psub p0 pm1) in
      let px := padd p0 (vector_times (psub pm1 p0) (sprod (psub pm1 p0) (psub p1 p0) / lm1)) in
      [(p0, p1, px); (px, p1, pm1)]
  end.
