(** Reading the tables back, as a spreadsheet does. *)
From Coq Require Import String Ascii Permutation.
From Verif Require Import PyBase PyLib PyStr PyNum ER_Model NX_Model NX_Spec.
Local Open Scope list_scope.
Local Open Scope string_scope.

Definition semicolon : ascii := ";"%char.
(** the fields of every line; a line ends with a newline *)
Definition csv_rows (text : string) : list (list string) := map (split_on semicolon) (removelast (split_on nl text)).
(** a name that can stand in a field *)
Definition clean (s : string) : Prop := all_chars (fun c => negb (Ascii.eqb c semicolon) && negb (Ascii.eqb c nl)) s = true.

Definition header_row : list string := ["Device"; "Net1"; "Net2"; "Capacitance [fF]"; "Resistance [Ω]"].
Definition cap_row (i : nat) (e : couple * Qc) (row : list string) : Prop :=
  exists t, row = ["C" ++ nat_str i; fst (fst e); snd (fst e); t; ""] /\ rounds 3 t (snd e).
Definition res_row (i : nat) (e : couple * Qc) (row : list string) : Prop :=
  exists t, row = ["R" ++ nat_str i; fst (fst e); snd (fst e); ""; t] /\ rounds 3 t (snd e).
(** the rows of the entries, numbered from 1 *)
Definition numbered (P : nat -> couple * Qc -> list string -> Prop) (l : list (couple * Qc)) (rows : list (list string)) : Prop :=
  Forall2 (fun p row => P (fst p) (snd p) row) (combine (seq 1 (List.length l)) l) rows.
(** the devices ext_1, ext_2, ... *)
Definition numbered_devices (c : circuit) (cl : dev_class) (param : string) (l : list (couple * Qc)) (devs : list device) : Prop :=
  Forall2 (represents c cl param) devs l /\ map d_name devs = map (fun i => "ext_" ++ nat_str i) (seq 1 (List.length l)).
(** ordered by the first net, then the second, regardless of case *)
Inductive in_order : list (couple * Qc) -> Prop :=
| in_order_nil : in_order []
| in_order_cons e l : in_order l ->
    (forall e', In e' l -> strlt (casefold (fst (fst e'))) (casefold (fst (fst e))) = false /\
       (casefold (fst (fst e')) = casefold (fst (fst e)) -> strlt (casefold (snd (fst e'))) (casefold (snd (fst e))) = false)) ->
    in_order (e :: l).

(** a row of the FasterCap table *)
Definition fc_row (name net1 net2 : string) (farad : Qc) (row : list string) : Prop :=
  exists t, row = [name; net1; net2; t] /\ rounds 2 t (farad * Q2Qc (inject_Z (10 ^ 15)))%Qc.
