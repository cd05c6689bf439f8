(** The two tables of extracted parasitics for spreadsheets: klayout_pex/kpex_cli.py run_kpex_2_5d_engine (L700-707) and
    klayout_pex/klayout/netlist_csv.py (L33-59).  The text of a rounded number comes from PyNum. *)
From Coq Require Import String Ascii.
From Verif Require Import PyBase PyLib PyStr PyNum ER_Model NX_Model.
Local Open Scope list_scope.
Local Open Scope string_scope.

Definition endl : string := String nl "".
(** kpex_cli.py L703 *)
Definition header25 : string := "Device;Net1;Net2;Capacitance [fF];Resistance [Ω]" ++ endl.
(** kpex_cli.py L704-705 *)
Fixpoint cap_lines (idx : nat) (items : list (couple * Qc)) : string :=
  match items with
  | [] => ""
  | ((net1, net2), v) :: r =>
      "C" ++ nat_str (idx + 1) ++ ";" ++ net1 ++ ";" ++ net2 ++ ";" ++ show_round 3 v ++ ";" ++ endl ++ cap_lines (S idx) r
  end.
(** kpex_cli.py L706-707 *)
Fixpoint res_lines (idx : nat) (items : list (couple * Qc)) : string :=
  match items with
  | [] => ""
  | ((net1, net2), v) :: r =>
      "R" ++ nat_str (idx + 1) ++ ";" ++ net1 ++ ";" ++ net2 ++ ";;" ++ show_round 3 v ++ endl ++ res_lines (S idx) r
  end.
(** kpex_cli.py L700-707: the file, and whether it was written without an exception (the file is opened first) *)
Definition write_csv25 (r : results) : string * bool :=
  match summarize r with
  | None => ("", false)
  | Some sm => (header25 ++ cap_lines 0 (py_sorted item_lt (capacitances sm))
                         ++ res_lines 0 (py_sorted item_lt (resistances sm)), true)
  end.

(** ** netlist_csv.py *)
(** A device with the name of its class; NX_Model keeps only the kind of class. *)
Record fdev := FDev { f_dev : device; f_class : string }.
Section Csv.
(** net.name, which is empty for a net without a name (where expanded_name() makes one up) *)
Variable net_name : knet -> string.
Variable nets : list knet.
(** d.net_for_terminal, L55-56; [None] is Python's None *)
Definition terminal_net (d : device) (t : string) : option knet :=
  match dget (d_terms d) t with None => None | Some i => find (fun n => Nat.eqb (n_id n) i) nets end.
(** 10^15 *)
Definition femto : Qc := Q2Qc (inject_Z (10 ^ 15)).
(** the loop body L44-59.  [Some ""]: nothing is written; [None]: AttributeError for an open terminal *)
Definition csv_line (f : fdev) : option string :=
  let d := f_dev f in
  if is_capacitor (d_class d) && eqb (f_class f) "PEX_CAP" then
    match terminal_net d "A", terminal_net d "B" with
    | Some n1, Some n2 =>
        Some (d_name d ++ ";" ++ net_name n1 ++ ";" ++ net_name n2 ++ ";" ++ show_round 2 (dgetd (d_params d) "C" * femto)%Qc ++ endl)
    | _, _ => None
    end
  else Some "".
Fixpoint csv_lines (l : list fdev) : string * bool :=
  match l with
  | [] => ("", true)
  | f :: r => match csv_line f with None => ("", false) | Some t => let (u, ok) := csv_lines r in (t ++ u, ok) end
  end.
(** L38-59 for the devices of the top circuit *)
Definition write_csv (l : list fdev) : string * bool :=
  let (t, ok) := csv_lines l in ("Device;Net1;Net2;Capacitance [fF]" ++ endl ++ t, ok).
End Csv.
(** The devices of a circuit expanded by klayout_pex/klayout/netlist_expander.py with their class names: those that were
    there before have the names [kept]; the others are of the classes PEX_CAP and PEX_RES made at L54-57 and L129-132. *)
Definition with_classes (kept : list string) (devs : list device) : list fdev :=
  map (fun p => FDev (fst p) (snd p)) (combine devs
    (kept ++ map (fun d => if is_capacitor (d_class d) then "PEX_CAP" else "PEX_RES") (skipn (List.length kept) devs))).
