(** The script for Magic, klayout_pex/magic/magic_runner.py, and the loop that runs an external tool. *)
From Coq Require Import String Ascii ZArith QArith.Qround.
From Verif Require Import PyBase PyLib PyStr.
Local Open Scope string_scope.
Local Open Scope list_scope.

(** magic_runner.py L39-57: the enumerations *)
Inductive pex_mode := MCC | MRC | MR.
Inductive short_mode := ShortNone | ShortResistor | ShortVoltage.
Inductive merge_mode := MergeNone | MergeConservative | MergeAggressive.
Definition short_text (m : short_mode) : string := match m with ShortNone => "none" | ShortResistor => "resistor" | ShortVoltage => "voltage" end.
Definition merge_text (m : merge_mode) : string := match m with MergeNone => "none" | MergeConservative => "conservative" | MergeAggressive => "aggressive" end.

(** The arguments of prepare_magic_script, L60-71, without the path of the script. *)
Record request := Request {
  q_gds : string; q_cell : string; q_dir : string; q_out : string; q_mode : pex_mode;
  q_cthresh : Qc; q_rthresh : Qc; q_tolerance : Qc; q_halo : option Qc; q_short : short_mode; q_merge : merge_mode }.

(** round(x) to an integer: half to even.  Simplified: the argument is an exact rational, not a float. *)
Definition py_round (x : Qc) : Z :=
  let f := Qfloor x in
  match ((x - inject_Z f) ?= (1 # 2))%Q with
  | Lt => f
  | Gt => (f + 1)%Z
  | Eq => if Z.even f then f else (f + 1)%Z
  end.
(** Text of an integer *)
Definition int_text (z : Z) : string := DecimalString.NilZero.string_of_int (Z.to_int z).

Section Script.
(** os.path.abspath, the text of a float in an f-string, and klayout_pex.version.__version__ are oracles. *)
Variables (abspath : string -> string) (show : Qc -> string) (version : string).

(** L76-77 *)
Definition halo_decl (h : option Qc) : string :=
  match h with None => "" | Some x => (String nl "extract halo " ++ int_text (py_round (x * Q2Qc 200)%Qc))%string end.

(** L73-75, L79-161: the text of the script.  A triple-quoted f-string is the list of its lines joined by newlines. *)
Definition prepare_magic_script (q : request) : string :=
  let gds_path := abspath (q_gds q) in
  let run_dir_path := abspath (q_dir q) in
  let output_netlist_path := abspath (q_out q) in
  let cell_name := q_cell q in
  let short_mode := short_text (q_short q) in
  let merge_mode := merge_text (q_merge q) in
  match q_mode q with
  | MCC => join nl [
      "# Generated by kpex " ++ version;
      "crashbackups stop";
      "drc off";
      "gds read " ++ gds_path;
      "load " ++ cell_name;
      "select top cell";
      "flatten " ++ cell_name ++ "_flat";
      "load " ++ cell_name ++ "_flat";
      "cellname delete " ++ cell_name ++ " -noprompt";
      "cellname rename " ++ cell_name ++ "_flat " ++ cell_name;
      "select top cell";
      "extract path " ++ run_dir_path ++ halo_decl (q_halo q);
      "extract all";
      "ext2spice short " ++ short_mode;
      "ext2spice merge " ++ merge_mode;
      "ext2spice cthresh " ++ show (q_cthresh q);
      "ext2spice subcircuits top on";
      "ext2spice format ngspice";
      "ext2spice -p " ++ run_dir_path ++ " -o " ++ output_netlist_path;
      "quit -noprompt" ]%string
  | MRC => join nl [
      "# Generated by kpex " ++ version;
      "crashbackups stop";
      "drc off";
      "gds read " ++ gds_path;
      "load " ++ cell_name;
      "select top cell";
      "flatten " ++ cell_name ++ "_flat";
      "load " ++ cell_name ++ "_flat";
      "cellname delete " ++ cell_name ++ " -noprompt";
      "cellname rename " ++ cell_name ++ "_flat " ++ cell_name;
      "select top cell";
      "extract path " ++ run_dir_path ++ halo_decl (q_halo q);
      "extract do resistance";
      "extract all";
      "ext2sim labels on";
      "ext2sim";
      "extresist tolerance " ++ show (q_tolerance q);
      "extresist all";
      "ext2spice short " ++ short_mode;
      "ext2spice merge " ++ merge_mode;
      "ext2spice cthresh " ++ show (q_cthresh q);
      "ext2spice rthresh " ++ show (q_rthresh q);
      "ext2spice extresist on";
      "ext2spice subcircuits top on";
      "ext2spice format ngspice";
      "ext2spice -p " ++ run_dir_path ++ " -o " ++ output_netlist_path;
      "quit -noprompt";
      "" ]%string
  | MR => join nl [
      "# Generated by kpex " ++ version;
      "crashbackups stop";
      "drc off";
      "gds read " ++ gds_path;
      "load " ++ cell_name;
      "select top cell";
      "flatten " ++ cell_name ++ "_flat";
      "load " ++ cell_name ++ "_flat";
      "cellname delete " ++ cell_name ++ " -noprompt";
      "cellname rename " ++ cell_name ++ "_flat " ++ cell_name;
      "select top cell";
      "extract path " ++ run_dir_path ++ halo_decl (q_halo q);
      "extract do resistance";
      "extract no capacitance";
      "extract no coupling";
      "extract all";
      "ext2sim labels on";
      "ext2sim";
      "extresist tolerance " ++ show (q_tolerance q);
      "extresist all";
      "ext2spice short " ++ short_mode;
      "ext2spice merge " ++ merge_mode;
      "ext2spice rthresh " ++ show (q_rthresh q);
      "ext2spice extresist on";
      "ext2spice subcircuits top on";
      "ext2spice format ngspice";
      "ext2spice -p " ++ run_dir_path ++ " -o " ++ output_netlist_path;
      "quit -noprompt";
      "" ]%string
  end.
End Script.

(** ** Running a tool *)
(** line[:-1] *)
Fixpoint but_last (s : string) : string :=
  match s with EmptyString => EmptyString | String c EmptyString => EmptyString | String c t => String c (but_last t) end.

(** What a tool does: the text it prints (after the newline translation of universal_newlines), its exit status. *)
Record tool := Tool { t_output : string; t_status : Z }.
(** What the caller sees: the log file, the lines logged on the console, whether an exception was raised. *)
Record seen := Seen { s_log : string; s_console : list string; s_raised : bool }.

(** magic_runner.py L192-199: readline until it returns nothing.
    The same loop is in fastcap_runner.py L86-93, fastercap_runner.py L85-92, lvs_runner.py L82-89, netlistsvg_runner.py L71-78. *)
Fixpoint copy_lines (lines : list string) (log : string) (console : list string) : string * list string :=
  match lines with
  | [] => (log, console)
  | line :: t => copy_lines t (log ++ line)%string (console ++ [but_last line])
  end.
(** magic_runner.py L166-209 run_magic, with [strict], likewise fastcap_runner.py L80-103, fastercap_runner.py L79-102 and
    netlistsvg_runner.py L65-88; lvs_runner.py L76-99 run_klayout_lvs, without [strict]: it warns only. *)
Definition run_tool (strict : bool) (t : tool) : seen :=
  let (log, console) := copy_lines (readlines (t_output t)) "" [] in
  Seen log console (if Z.eqb (t_status t) 0 then false else strict).
