(** Model of the field solver engines of klayout_pex/kpex_cli.py from the log of the solver to the
    two netlists: run_fastercap_extraction (L505-573) and run_fastcap_extraction (L632-674).  The
    log is an input.  Left out: the CSV files (CM_Model, CS_Model) and log output.  [None] is an
    exception. *)
From Coq Require Import String.
From Verif Require Import PyBase PyLib PyStr CM_Model.
From Verif Require LG_Model NX_Model FX_Model.
Local Open Scope Qc_scope.

(** the default of cap_threshold, netlist_reducer.py L37: 0.05e-15 *)
Definition reducer_threshold : Qc := Q2Qc (5 # (10 ^ 17)).

Section Engines.
(** float(), and kdb.Netlist.combine_devices *)
Variables (parse_float : string -> option Qc) (combine_devices : NX_Model.netlist -> NX_Model.netlist).

(** from the parsed matrix to the expanded and the reduced netlist, kpex_cli.py L533-571 and, for
    FastCap, L650-673 *)
Definition matrix_netlists (parsed : option cap_matrix) (nl : NX_Model.netlist) (top : string) (blackbox : bool)
    : option (NX_Model.netlist * NX_Model.netlist) :=
  match parsed with
  | None => None
  | Some m =>
      match averaged_off_diagonals m with
      | None => None
      | Some m =>
          match FX_Model.fc_expand nl top m blackbox with
          | None => None
          | Some expanded =>
              match FX_Model.reduce combine_devices expanded top reducer_threshold with
              | None => None
              | Some reduced => Some (expanded, reduced)
              end
          end
      end
  end.
(** run_fastercap_extraction, kpex_cli.py L533-571, from the text of the log *)
Definition fastercap_netlists (log : string) := matrix_netlists (LG_Model.fastercap_parse parse_float log).
(** run_fastcap_extraction, kpex_cli.py L650-673, from the text of the log *)
Definition fastcap_netlists (log : string) := matrix_netlists (LG_Model.fastcap_parse parse_float log).
End Engines.
