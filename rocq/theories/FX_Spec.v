(** What the FasterCap netlist expansion should add, independently of the model's loops. *)
From Coq Require Import String Ascii.
From Verif Require Import PyBase PyLib PyStr ER_Model NX_Model CM_Model CM_Props.
Local Open Scope Qc_scope.

(** [n] is the last net of the list with name [s] *)
Definition last_named (l : list knet) (s : string) (n : knet) : Prop :=
  exists a b, l = a ++ n :: b /\ n_name n = s /\ ~ In s (map n_name b).

(** an axis label g<digits>_<net name> *)
Definition axis_label (nn s : string) : Prop :=
  exists ds, nn = ("g" ++ ds ++ "_" ++ s)%string /\ ds <> ""%string /\
    all_chars isdigit ds = true /\ all_chars (fun c => negb (Ascii.eqb c nl)) s = true.

(** the axes of the matrix name these nets *)
Definition axes (l : list knet) (m : cap_matrix) (nets : list knet) : Prop :=
  Forall2 (fun nn n => exists s, axis_label nn s /\ last_named l s n) (conductor_names m) nets.

Definition row_sum (n : nat) (m : cap_matrix) (i : nat) : Qc := qsumf (entry m i) (seq 0 n).

(** the capacitances to create, in order: row i holds its couplings to later axes, then (i > 0) what
    remains of the diagonal once the couplings of the row are taken out *)
Definition cap_cells (n : nat) (m : cap_matrix) : list (nat * nat * Qc) :=
  flat_map (fun i => map (fun j => (i, j, - entry m i j)) (seq (S i) (n - S i)) ++
                     (if Nat.ltb 0 i then [(i, i, row_sum n m i)] else [])) (seq 0 n).
Definition positive (a : nat * nat * Qc) : bool := qltb 0 (snd a).

(** the nets such a capacitance joins; a diagonal one goes to axis 0 *)
Definition end1 (nets : list knet) (a : nat * nat * Qc) : nat := n_id (nth (fst (fst a)) nets (KNet 0 "")).
Definition end2 (nets : list knet) (a : nat * nat * Qc) : nat :=
  n_id (nth (if Nat.eqb (fst (fst a)) (snd (fst a)) then 0 else snd (fst a)) nets (KNet 0 "")).
Definition cell_device (nets : list knet) (a : nat * nat * Qc) : device :=
  Device ("Cext_" ++ nat_str (fst (fst a)) ++ "_" ++ nat_str (snd (fst a))) CCapacitor
    [("A"%string, end1 nets a); ("B"%string, end2 nets a)] [("C"%string, snd a)].

(** charge on a net when the nets are at potentials V: every capacitor with one terminal on the net
    contributes C times the potential difference *)
Definition terminal (d : device) (t : string) : nat := match dget (d_terms d) t with Some n => n | None => 0%nat end.
Definition capacitance (d : device) : Qc := dgetd (d_params d) "C"%string.
Definition charge (devs : list device) (V : nat -> Qc) (net : nat) : Qc :=
  qsumf (fun d => if is_capacitor (d_class d) then
      capacitance d * ((if Nat.eqb (terminal d "A") net then V net - V (terminal d "B") else 0) +
                       (if Nat.eqb (terminal d "B") net then V net - V (terminal d "A") else 0))
    else 0) devs.
(** total capacitance between two nets *)
Definition between (devs : list device) (a b : nat) : Qc :=
  qsumf (fun d => if is_capacitor (d_class d) then
      if (Nat.eqb (terminal d "A") a && Nat.eqb (terminal d "B") b) || (Nat.eqb (terminal d "A") b && Nat.eqb (terminal d "B") a)
      then capacitance d else 0
    else 0) devs.
