(** When the parasitics of a netlist are those of a passive network. *)
From Coq Require Import String ZArith.
From Verif Require Import PyBase PyLib ER_Model SY_Spec.
From Verif Require SF_Model SF_Spec.
Local Open Scope Qc_scope.

(** every capacitor of [l] joins two different nets and has a positive value *)
Definition all_positive (l : list (couple * Qc)) : Prop := forall x y v, has l x y v -> x <> y /\ 0 < v.
(** a table with positive coefficients, whatever the offsets *)
Definition positive_coefficients (sidewalls : dict string (Qc * Qc)) : Prop :=
  forall layer c offset, dget sidewalls layer = Some (c, offset) -> 0 < c.
(** beside an edge of the net [fst e] on layer [idx], every polygon of another net on that layer
    is so far away that its distance (in um) and the offset of the layer add up to more than 0 *)
Definition far_enough (dbu : Qc) (sidewalls : dict string (Qc * Qc)) (names : list string) (idx : nat)
    (e : string * list ((Z * Z) * dict nat (list SF_Model.spoly))) : Prop :=
  forall iv pbc ps p y c offset, In (iv, pbc) (snd e) -> In (idx, ps) pbc -> In p ps -> SF_Model.sp_net p <> fst e ->
    SF_Spec.is_lowest p y -> dget sidewalls (nth idx names EmptyString) = Some (c, offset) ->
    0 < SF_Model.zq y * dbu + offset.
(** beside an edge of the net [fst e] on layer [idx], every polygon of another net on that layer
    is more than [margin] (in um) away *)
Definition beyond (margin dbu : Qc) (idx : nat) (e : string * list ((Z * Z) * dict nat (list SF_Model.spoly))) : Prop :=
  forall iv pbc ps p y, In (iv, pbc) (snd e) -> In (idx, ps) pbc -> In p ps -> SF_Model.sp_net p <> fst e ->
    SF_Spec.is_lowest p y -> margin < SF_Model.zq y * dbu.

(** the energy in the capacitors at the given voltages of the nets, times two *)
Definition energy2 (l : list (couple * Qc)) (volt : string -> Qc) : Qc :=
  qsumf (fun e => snd e * ((volt (fst (fst e)) - volt (snd (fst e))) * (volt (fst (fst e)) - volt (snd (fst e))))) l.
