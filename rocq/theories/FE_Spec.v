(** What the netlists of a field solver run should say, in terms of the matrix printed in its log. *)
From Coq Require Import String.
From Verif Require Import PyBase PyLib NX_Model LG_Spec FX_Spec.
Local Open Scope Qc_scope.

(** the matrix as printed: per row, the name of the conductor and the numbers *)
Notation printed := (list (string * list Qc)).
(** as many numbers in every row as there are rows *)
Definition complete (rs : printed) : Prop := Forall (fun r => List.length (snd r) = List.length rs) rs.
(** the number in row [i] and column [j] *)
Definition value (rs : printed) (i j : nat) : Qc := nth j (snd (nth i rs (EmptyString, []))) 0.
(** the mean of the two numbers of a pair of conductors, in farads *)
Definition mean (rs : printed) (i j : nat) : Qc := micro ((value rs i j + value rs j i) / Q2Qc 2).
Definition mean_sum (rs : printed) (i : nat) : Qc := qsumf (mean rs i) (seq 0 (List.length rs)).
(** couplings are negative, and no row sum is *)
Definition physical (rs : printed) : Prop :=
  (forall i j, (i < List.length rs)%nat -> (j < List.length rs)%nat -> i <> j -> mean rs i j <= 0) /\
  (forall i, (0 < i < List.length rs)%nat -> 0 <= mean_sum rs i).
(** the nets of the conductors: conductor g<number>_<net> belongs to the net *)
Definition conductor_nets (rs : printed) (names : list string) : Prop := Forall2 (fun r s => axis_label (fst r) s) rs names.

(** the netlist [ex] is [nl] where circuit [top] has nets with the names of the conductors (those of
    the layout, except that VSUBS and FC_GND are new) and, besides its former devices, capacitors
    with the charges of the matrix: with conductor 0 at potential zero, conductor [i] has the charge
    sum of mean i j times the potential of j; and between two conductors is minus their mean *)
Definition has_matrix (nl ex : netlist) (top : string) (blackbox : bool) (rs : printed) (names : list string) : Prop :=
  exists pre c post c' nets, circuits nl = pre ++ c :: post /\ c_name c = top /\ ~ In top (map c_name pre) /\ circuits ex = pre ++ c' :: post /\
    NoDup (map n_id nets) /\
    Forall2 (fun s x => n_name x = s /\ In x (c_nets c') /\ (s <> "VSUBS"%string -> s <> "FC_GND"%string -> In x (c_nets c))) names nets /\
    let n := List.length rs in
    let kept := if blackbox then c_devices c else [] in
    let id i := n_id (nth i nets (KNet 0 EmptyString)) in
    (forall V, V (id 0%nat) = 0 -> forall i, (0 < i < n)%nat ->
       charge (c_devices c') V (id i) = charge kept V (id i) + qsumf (fun j => mean rs i j * V (id j)) (seq 0 n)) /\
    (forall i j, (0 < i < j)%nat -> (j < n)%nat ->
       between (c_devices c') (id i) (id j) = between kept (id i) (id j) - mean rs i j) /\
    (forall j, (0 < j < n)%nat ->
       between (c_devices c') (id 0%nat) (id j) = between kept (id 0%nat) (id j) + (mean_sum rs j - mean rs 0 j)).
(** [red] is [nl] where circuit [top] has lost exactly its capacitors below [thr] *)
Definition without_small (nl red : netlist) (top : string) (thr : Qc) : Prop :=
  exists pre c post c', circuits nl = pre ++ c :: post /\ c_name c = top /\ ~ In top (map c_name pre) /\ circuits red = pre ++ c' :: post /\
    c_nets c' = c_nets c /\
    exists keep, c_devices c' = filter keep (c_devices c) /\
      forall d, keep d = false <-> (d_class d = CCapacitor \/ d_class d = CCapacitorWithBulk) /\ capacitance d < thr.
