(** The engines of one run and the files they read and write: klayout_pex/kpex_cli.py main (L914-949), run_fastercap_extraction,
    run_fastcap_extraction, run_kpex_2_5d_engine, and run_fastcap in klayout_pex/fastcap/fastcap_runner.py. *)
From Coq Require Import String.
From Verif Require Import PyBase PyLib.
Local Open Scope string_scope.
Local Open Scope list_scope.

(** A path as a list of components, absolute or relative to the working directory. Simplified: no "." and "..", no links. *)
Inductive path := Abs (l : list string) | Rel (l : list string).
(** os.path.abspath, and what opening a file does *)
Definition at_dir (cwd : list string) (p : path) : list string := match p with Abs l => l | Rel l => cwd ++ l end.
(** os.path.join(p, name) *)
Definition join1 (p : path) (name : string) : path := match p with Abs l => Abs (l ++ [name]) | Rel l => Rel (l ++ [name]) end.
(** os.path.dirname of a path with at least two components *)
Definition dirname (p : path) : path := match p with Abs l => Abs (removelast l) | Rel l => Rel (removelast l) end.
(** os.path.basename *)
Definition basename (p : path) : string := match p with Abs l | Rel l => last l "" end.

(** What is in files. Contents that this part of the code only passes on are not looked into. *)
Section Engines.
Context {data matrix : Type}.

(** the working directory of the process, and the files by absolute path. Simplified: every directory exists and can be written. *)
Record world := World { cwd : list string; files : dict (list string) data }.
Definition act (A : Type) := world -> world * option A.
Definition ret {A} (a : A) : act A := fun w => (w, Some a).
Definition bind {A B} (m : act A) (f : A -> act B) : act B := fun w => match m w with (w1, Some a) => f a w1 | (w1, None) => (w1, None) end.
(** [None] is an exception; nothing in L918-949 catches one *)
Definition raise {A} : act A := fun w => (w, None).
Definition write (p : path) (d : data) : act unit := fun w => (World (cwd w) (dset (files w) (at_dir (cwd w) p) d), Some tt).
(** open(p, 'r'): FileNotFoundError if there is no such file *)
Definition read (p : path) : act data := fun w => (w, dget (files w) (at_dir (cwd w) p)).
Definition chdir (p : path) : act unit := fun w => (World (at_dir (cwd w) p) (files w), Some tt).
Definition abspath (p : path) : act path := fun w => (w, Some (Abs (at_dir (cwd w) p))).

(** The code around, taken as given: the list file for the field solvers (kpex_cli.py L479-491), what a solver prints for the list file it
    finds (nothing there is [None]) and whether it ends with status 0, the parsers of the logs ([None] is an exception), averaging, the
    writers of matrices, netlists and of the 2.5D engine. Simplified: of these only the solvers and the parsers can fail. *)
Record tools := Tools {
  lst_data : data;
  fastercap : option data -> data * bool;
  fastcap : option data -> data * bool;
  parse_fastercap : data -> option matrix;
  parse_fastcap : data -> option matrix;
  averaged : matrix -> matrix;
  matrix_csv : matrix -> data;
  expanded : matrix -> data;
  expanded_csv : matrix -> data;
  reduced : matrix -> data;
  report : data;
  csv_25d : data;
  spice_25d : data }.
Variable T : tools.

(** The arguments: output_dir_path (relative if --out_dir, default "output", is), effective_cell_name, the engines. *)
Record args := Args { out : path; cell : string; run_fastercap_ : bool; run_fastcap_ : bool; run_25d : bool }.
Definition named (a : args) (suffix : string) : path := join1 (out a) (cell a ++ suffix).

(** kpex_cli.py L488-491, L502: the list file; Simplified: one file, the geometries beside it are left out *)
Definition build_fastercap_input (a : args) : act path :=
  let faster_cap_input_dir_path := join1 (out a) "FasterCap_Input_Files" in
  let lst_file := join1 faster_cap_input_dir_path "FasterCap_Input_.lst" in
  bind (write lst_file (lst_data T)) (fun _ => ret lst_file).

(** fastercap_runner.py L38-102: the tool runs in the working directory with the path of the list file; the log is written also on failure *)
Definition run_fastercap (lst_file_path log_path : path) : act unit := fun w =>
  let (log, ok) := fastercap T (dget (files w) (at_dir (cwd w) lst_file_path)) in
  bind (write log_path log) (fun _ => if ok then ret tt else raise) w.

(** fastcap_runner.py L42-103 *)
Definition run_fastcap (lst_file_path log_path : path) : act unit :=
  let work_dir := dirname lst_file_path in
  bind (abspath log_path) (fun log_path =>
  let lst_file_path := Rel [basename lst_file_path] in
  bind (chdir work_dir) (fun _ => fun w =>
  let (log, ok) := fastcap T (dget (files w) (at_dir (cwd w) lst_file_path)) in
  bind (write log_path log) (fun _ => if ok then ret tt else raise) w)).

(** the parser raises if the log has no matrix *)
Definition parsed (o : option matrix) : act matrix := match o with Some m => ret m | None => raise end.

(** kpex_cli.py L505-573 *)
Definition run_fastercap_extraction (a : args) (lst_file : path) : act unit :=
  let log_path := named a "_FasterCap_Output.txt" in
  let raw_csv_path := named a "_FasterCap_Result_Matrix_Raw.csv" in
  let avg_csv_path := named a "_FasterCap_Result_Matrix_Avg.csv" in
  let expanded_netlist_path := named a "_FasterCap_Expanded_Netlist.cir" in
  let expanded_netlist_csv_path := named a "_FasterCap_Expanded_Netlist.csv" in
  let reduced_netlist_path := named a "_FasterCap_Reduced_Netlist.cir" in
  bind (run_fastercap lst_file log_path) (fun _ =>
  bind (read log_path) (fun log =>
  bind (parsed (parse_fastercap T log)) (fun cap_matrix =>
  bind (write raw_csv_path (matrix_csv T cap_matrix)) (fun _ =>
  let cap_matrix := averaged T cap_matrix in
  bind (write avg_csv_path (matrix_csv T cap_matrix)) (fun _ =>
  bind (write expanded_netlist_csv_path (expanded_csv T cap_matrix)) (fun _ =>
  bind (read expanded_netlist_csv_path) (fun _ =>
  bind (write expanded_netlist_path (expanded T cap_matrix)) (fun _ =>
  write reduced_netlist_path (reduced T cap_matrix))))))))).

(** kpex_cli.py L632-674 *)
Definition run_fastcap_extraction (a : args) (lst_file : path) : act unit :=
  let log_path := named a "_FastCap2_Output.txt" in
  let raw_csv_path := named a "_FastCap2_Result_Matrix_Raw.csv" in
  let avg_csv_path := named a "_FastCap2_Result_Matrix_Avg.csv" in
  let expanded_netlist_path := named a "_FastCap2_Expanded_Netlist.cir" in
  let reduced_netlist_path := named a "_FastCap2_Reduced_Netlist.cir" in
  bind (run_fastcap lst_file log_path) (fun _ =>
  bind (read log_path) (fun log =>
  bind (parsed (parse_fastcap T log)) (fun cap_matrix =>
  bind (write raw_csv_path (matrix_csv T cap_matrix)) (fun _ =>
  let cap_matrix := averaged T cap_matrix in
  bind (write avg_csv_path (matrix_csv T cap_matrix)) (fun _ =>
  bind (write expanded_netlist_path (expanded T cap_matrix)) (fun _ =>
  write reduced_netlist_path (reduced T cap_matrix))))))).

(** kpex_cli.py L676-743: the report is written by the extractor; the CSV is read back for the console *)
Definition run_kpex_2_5d_engine (report_path netlist_csv_path expanded_netlist_path : path) : act unit :=
  bind (write report_path (report T)) (fun _ =>
  bind (write netlist_csv_path (csv_25d T)) (fun _ =>
  bind (read netlist_csv_path) (fun _ =>
  bind (write expanded_netlist_path (spice_25d T)) (fun _ =>
  bind (read report_path) (fun _ => ret tt))))).

(** kpex_cli.py L918-949 *)
Definition engines (a : args) : act unit :=
  bind (if run_fastcap_ a || run_fastercap_ a then
          bind (build_fastercap_input a) (fun lst_file =>
          bind (if run_fastercap_ a then run_fastercap_extraction a lst_file else ret tt) (fun _ =>
          if run_fastcap_ a then run_fastcap_extraction a lst_file else ret tt))
        else ret tt) (fun _ =>
  if run_25d a then
    let report_path := named a "_k25d_pex_report.rdb.gz" in
    bind (abspath (named a "_k25d_pex_netlist.csv")) (fun netlist_csv_path =>
    bind (abspath (named a "_k25d_pex_netlist.spice")) (fun netlist_spice_path =>
    run_kpex_2_5d_engine report_path netlist_csv_path netlist_spice_path))
  else ret tt).
End Engines.
