(** What a run with field solvers and the 2.5D engine leaves behind: C83. *)
From Coq Require Import String.
From Verif Require Import PyBase PyLib EN_Model.
Local Open Scope string_scope.
Local Open Scope list_scope.

Definition absolute (p : path) : Prop := match p with Abs _ => True | Rel _ => False end.

Section Results.
Context {data matrix : Type}.
Variable T : @tools data matrix.

(** the logs of the two solvers when they are given the list file of this run *)
Definition fastercap_log : data := fst (fastercap T (Some (lst_data T))).
Definition fastcap_log : data := fst (fastcap T (Some (lst_data T))).

(** the solver ends well and its log holds the matrix [m] *)
Definition fastercap_gives (m : matrix) : Prop := snd (fastercap T (Some (lst_data T))) = true /\ parse_fastercap T fastercap_log = Some m.
Definition fastcap_gives (m : matrix) : Prop := snd (fastcap T (Some (lst_data T))) = true /\ parse_fastcap T fastcap_log = Some m.

(** the files each engine has to deliver: the end of the name, after the cell name, and the contents *)
Definition fastercap_files (m : matrix) : list (string * data) :=
  [("_FasterCap_Output.txt", fastercap_log);
   ("_FasterCap_Result_Matrix_Raw.csv", matrix_csv T m);
   ("_FasterCap_Result_Matrix_Avg.csv", matrix_csv T (averaged T m));
   ("_FasterCap_Expanded_Netlist.csv", expanded_csv T (averaged T m));
   ("_FasterCap_Expanded_Netlist.cir", expanded T (averaged T m));
   ("_FasterCap_Reduced_Netlist.cir", reduced T (averaged T m))].
Definition fastcap_files (m : matrix) : list (string * data) :=
  [("_FastCap2_Output.txt", fastcap_log);
   ("_FastCap2_Result_Matrix_Raw.csv", matrix_csv T m);
   ("_FastCap2_Result_Matrix_Avg.csv", matrix_csv T (averaged T m));
   ("_FastCap2_Expanded_Netlist.cir", expanded T (averaged T m));
   ("_FastCap2_Reduced_Netlist.cir", reduced T (averaged T m))].
Definition rcx25_files : list (string * data) :=
  [("_k25d_pex_report.rdb.gz", report T); ("_k25d_pex_netlist.csv", csv_25d T); ("_k25d_pex_netlist.spice", spice_25d T)].

Definition due (a : args) (m1 m2 : matrix) : list (string * data) :=
  (if run_fastercap_ a then fastercap_files m1 else []) ++ (if run_fastcap_ a then fastcap_files m2 else []) ++
  (if run_25d a then rcx25_files else []).

(** the output directory as the user meant it: seen from the working directory in which the run starts *)
Definition out_dir (a : args) (w : @world data) : list string := at_dir (cwd w) (out a).
Definition result (a : args) (w : @world data) (suffix : string) : list string := out_dir a w ++ [(cell a ++ suffix)%string].
Definition list_file (a : args) (w : @world data) : list string := out_dir a w ++ ["FasterCap_Input_Files"; "FasterCap_Input_.lst"].

(** the files of [names] hold what they should *)
Definition delivered (a : args) (w w1 : @world data) (l : list (string * data)) : Prop :=
  forall s d, In (s, d) l -> dget (files w1) (result a w s) = Some d.
(** only the list file and results of these names changed *)
Definition only (a : args) (w w1 : @world data) (names : list string) : Prop :=
  forall p, dget (files w1) p <> dget (files w) p -> p = list_file a w \/ exists s, In s names /\ p = result a w s.
End Results.
