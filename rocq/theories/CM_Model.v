(** Model of klayout_pex/common/capacitance_matrix.py.  Values are rationals; the text
    forms of numbers ('%.12g' and float()) are parameters.  Exceptions are [None]. *)
From Coq Require Import String Ascii.
From Verif Require Import PyBase PyLib PyStr.
Local Open Scope Qc_scope.

(** CapacitanceMatrix, L31-34 *)
Record cap_matrix := CapMatrix { conductor_names : list string; rows : list (list Qc) }.
(** dimension, L42-44 *)
Definition dimension (m : cap_matrix) : nat := List.length (conductor_names m).

(** self[i][j] *)
Definition mget (r : list (list Qc)) (i j : nat) : option Qc :=
  match nth_error r i with Some row => nth_error row j | None => None end.
(** l[i] = v *)
Fixpoint lset {A} (l : list A) (i : nat) (v : A) : option (list A) :=
  match l, i with
  | [], _ => None
  | _ :: t, O => Some (v :: t)
  | x :: t, S i' => match lset t i' v with Some t' => Some (x :: t') | None => None end
  end.
(** c[i][j] = v *)
Definition mset (r : list (list Qc)) (i j : nat) (v : Qc) : option (list (list Qc)) :=
  match nth_error r i with
  | None => None
  | Some row => match lset row j v with Some row' => lset r i row' | None => None end
  end.

(** the loops of averaged_off_diagonals, L74-84: the pairs (i,j) in visiting order *)
Definition index_pairs (nrows ncols : nat) : list (nat * nat) :=
  flat_map (fun i => map (pair i) (seq 0 ncols)) (seq 0 nrows).
Definition average_step (orig : list (list Qc)) (c : option (list (list Qc))) (ij : nat * nat) : option (list (list Qc)) :=
  match c with
  | None => None
  | Some c =>
      let (i, j) := ij in
      if Nat.leb j i then Some c
      else match mget orig i j, mget orig j i with
           | Some v1, Some v2 =>
               let avg := (v1 + v2) / Q2Qc 2 in
               match mset c i j avg with Some c1 => mset c1 j i avg | None => None end
           | _, _ => None
           end
  end.
(** averaged_off_diagonals, L72-85; the deep copy is the fold's initial value *)
Definition averaged_off_diagonals (m : cap_matrix) : option cap_matrix :=
  match fold_left (average_step (rows m)) (index_pairs (List.length (rows m)) (List.length (conductor_names m))) (Some (rows m)) with
  | Some r => Some (CapMatrix (conductor_names m) r)
  | None => None
  end.

Section CSV.
(** '%.12g' % v and float(s) *)
Variable fmt : Qc -> string.
Variable parse_float : string -> option Qc.

(** write_csv, L60-70: the text written.  The separator is one character. *)
Definition write_csv (sep : ascii) (m : cap_matrix) : string :=
  (join sep (conductor_names m) ++ String nl "" ++
   fold_right (fun row acc => (join sep (map fmt row) ++ String nl "" ++ acc)%string) ""%string (rows m))%string.

Fixpoint map_opt {A B} (f : A -> option B) (l : list A) : option (list B) :=
  match l with
  | [] => Some []
  | x :: t => match f x, map_opt f t with Some y, Some r => Some (y :: r) | _, _ => None end
  end.
(** parse_csv, L46-58 *)
Definition parse_csv (sep : ascii) (text : string) : option cap_matrix :=
  match readlines text with
  | header :: line :: lines =>
      match map_opt (fun l => map_opt (fun cell => parse_float (strip cell)) (split_on sep l)) (line :: lines) with
      | Some r => Some (CapMatrix (map strip (split_on sep header)) r)
      | None => None
      end
  | _ => None
  end.
End CSV.
