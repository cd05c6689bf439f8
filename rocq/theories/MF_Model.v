(** From the field solver's matrix to capacitors, in floating point: klayout_pex/common/capacitance_matrix.py and
    klayout_pex/klayout/netlist_expander.py.  Floats as in FP_Model.  An exception is [None].  The same code on exact numbers is in CM_Model
    and FX_Model. *)
From Coq Require Import ZArith String List.
From Flocq Require Import Core.Core IEEE754.BinarySingleNaN.
From Verif Require Import FP_Model.
From Verif Require CM_Model.
Import ListNotations.

(** - x and x > y of floats, klayout/netlist_expander.py L113 and L83 *)
Definition fopp : float -> float := Bopp.
Definition fgt (x y : float) : bool := Bltb y x.

(** CapacitanceMatrix, capacitance_matrix.py L31-34 *)
Record matrix := Matrix { names : list string; rows : list (list float) }.
(** dimension, capacitance_matrix.py L42-44 *)
Definition dimension (m : matrix) : nat := List.length (names m).
(** self[i][j], capacitance_matrix.py L36-37 *)
Definition mget (r : list (list float)) (i j : nat) : option float :=
  match nth_error r i with Some row => nth_error row j | None => None end.
(** c[i][j] = v, capacitance_matrix.py L83-84; [lset] is the assignment to an element of a list *)
Definition mset (r : list (list float)) (i j : nat) (v : float) : option (list (list float)) :=
  match nth_error r i with
  | None => None
  | Some row => match CM_Model.lset row j v with Some row' => CM_Model.lset r i row' | None => None end
  end.
(** the body of the loops, capacitance_matrix.py L77-84 *)
Definition average_step (orig : list (list float)) (c : option (list (list float))) (ij : nat * nat) : option (list (list float)) :=
  match c with
  | None => None
  | Some c =>
      let (i, j) := ij in
      if Nat.leb j i then Some c
      else match mget orig i j, mget orig j i with
           | Some v1, Some v2 =>
               let avg := fdiv (fadd v1 v2) (of_int 2) in
               match mset c i j avg with Some c1 => mset c1 j i avg | None => None end
           | _, _ => None
           end
  end.
(** averaged_off_diagonals, capacitance_matrix.py L73-85; the deep copy is the fold's initial value *)
Definition averaged_off_diagonals (m : matrix) : option matrix :=
  match fold_left (average_step (rows m)) (CM_Model.index_pairs (List.length (rows m)) (List.length (names m))) (Some (rows m)) with
  | Some r => Some (Matrix (names m) r)
  | None => None
  end.

(** A call of create_device in add_parasitic_cap, klayout/netlist_expander.py L78-90: the two indices in the name of the capacitor, and its value.
    Simplified: the nets are given by their index in the matrix; which nets these are, and the exception for two equal ones, are in FX_Model *)
Record capacitor := Cap { cap_i : nat; cap_j : nat; farad : float }.
(** klayout/netlist_expander.py L83-90 with cap_threshold = 0.0 (L76); the warning of L91-93 is not modelled *)
Definition add_parasitic_cap (i j : nat) (v : float) (l : list capacitor) : list capacitor :=
  if fgt v (of_int 0) then l ++ [Cap i j v] else l.
(** klayout/netlist_expander.py L110-118: the body of the inner loop *)
Definition col_step (row : list float) (i : nat) (st : option (float * list capacitor)) (j : nat) : option (float * list capacitor) :=
  match st with
  | None => None
  | Some (cap_ii, l) =>
      if Nat.eqb i j then st
      else match nth_error row j with
           | None => None
           | Some x =>
               let cap_value := fopp x in
               Some (fsub cap_ii cap_value, if Nat.ltb i j then add_parasitic_cap i j cap_value l else l)
           end
  end.
(** klayout/netlist_expander.py L107-122: the body of the outer loop; a capacitor with two equal indices is connected to the nets of this index and
    of index 0 *)
Definition row_step (m : matrix) (st : option (list capacitor)) (i : nat) : option (list capacitor) :=
  match st with
  | None => None
  | Some l =>
      match nth_error (rows m) i with
      | None => None
      | Some row =>
          match nth_error row i with
          | None => None
          | Some d =>
              match fold_left (col_step row i) (seq 0 (dimension m)) (Some (d, l)) with
              | None => None
              | Some (cap_ii, l1) => Some (if Nat.ltb 0 i then add_parasitic_cap i i cap_ii l1 else l1)
              end
          end
      end
  end.
(** klayout/netlist_expander.py L107: the outer loop *)
Definition capacitors (m : matrix) : option (list capacitor) := fold_left (row_step m) (seq 0 (dimension m)) (Some []).
