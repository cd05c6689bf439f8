(** C83: a run leaves the results of every engine it was asked for in the output directory. *)
From Coq Require Import String.
From Verif Require Import PyBase PyLib EN_Model EN_Spec EN_Proofs.
Local Open Scope string_scope.
Local Open Scope list_scope.

(** C83. If the solvers asked for end well, the run ends well, and every file each engine owes is in the output directory with the contents
    computed from the matrix that solver printed for the list file of this run; no other file changes. Partial: FastCap needs an absolute
    output directory. *)
Theorem C83_results_partial {data matrix} (T : @tools data matrix) a m1 m2 w :
  (run_fastcap_ a = false \/ absolute (out a)) ->
  (run_fastercap_ a = true -> fastercap_gives T m1) ->
  (run_fastcap_ a = true -> fastcap_gives T m2) ->
  exists w1, engines T a w = (w1, Some tt) /\ delivered a w w1 (due T a m1 m2) /\ only a w w1 (map fst (due T a m1 m2)).
Proof.
  intros A G1 G2. destruct (engines_ok T a m1 m2 w A G1 G2) as [c E]. eexists. split; [exact E|]. split.
  - intros s d I. cbn [files]. apply puts_in; [apply due_nodup|exact I].
  - apply puts_only.
Qed.

(** C83. If FasterCap fails, or prints no matrix, the run raises; its log is kept, no result of this or a later engine is touched. *)
Theorem C83_fastercap_failed {data matrix} (T : @tools data matrix) a w :
  run_fastercap_ a = true ->
  (snd (fastercap T (Some (lst_data T))) = false \/ parse_fastercap T (fastercap_log T) = None) ->
  exists w1, engines T a w = (w1, None) /\ delivered a w w1 [("_FasterCap_Output.txt", fastercap_log T)] /\
    only a w w1 ["_FasterCap_Output.txt"].
Proof.
  intros F G. eexists. split; [exact (engines_faster_fail T a w F G)|]. split.
  - intros s d I. cbn [files]. apply puts_in; [repeat constructor; cbn; tauto|exact I].
  - exact (puts_only T a w [("_FasterCap_Output.txt", fastercap_log T)] (cwd w)).
Qed.

(** C83. If FastCap fails, or prints no matrix, the run raises; the results of FasterCap and the log of FastCap are kept, no result of
    FastCap or of the 2.5D engine is touched. *)
Theorem C83_fastcap_failed {data matrix} (T : @tools data matrix) a m1 w :
  run_fastcap_ a = true -> (run_fastercap_ a = true -> fastercap_gives T m1) ->
  (snd (fastcap T (Some (lst_data T))) = false \/ (absolute (out a) /\ parse_fastcap T (fastcap_log T) = None)) ->
  let l := (if run_fastercap_ a then fastercap_files T m1 else []) ++ [("_FastCap2_Output.txt", fastcap_log T)] in
  exists w1, engines T a w = (w1, None) /\ delivered a w w1 l /\ only a w w1 (map fst l).
Proof.
  intros F G1 G l. destruct (engines_fast_fail T a m1 w F G1) as [c E]; [tauto|]. fold l in E. eexists. split; [exact E|]. split.
  - intros s d I. cbn [files]. apply puts_in; [|exact I]. unfold l.
    destruct (run_fastercap_ a); cbn; repeat constructor; cbn; intuition discriminate.
  - apply puts_only.
Qed.

(** C83 does not hold for FastCap with a relative output directory, which is the default: whatever FastCap prints, the run raises after it,
    no result of FastCap is written and the 2.5D engine, if asked for, does not run. (Unless the output directory happens to hold a copy of
    its own path and a log inside its folder of solver input.) *)
Theorem C83_relative_refuted {data matrix} (T : @tools data matrix) a o m1 w :
  out a = Rel o -> o <> [] -> run_fastcap_ a = true -> (run_fastercap_ a = true -> fastercap_gives T m1) ->
  dget (files w) (out_dir a w ++ ["FasterCap_Input_Files"] ++ o ++ [(cell a ++ "_FastCap2_Output.txt")%string]) = None ->
  let l := (if run_fastercap_ a then fastercap_files T m1 else []) ++ [("_FastCap2_Output.txt", fastcap_log T)] in
  exists w1, engines T a w = (w1, None) /\ delivered a w w1 l /\ only a w w1 (map fst l).
Proof.
  intros Eo No F G1 N l. destruct (engines_fast_fail T a m1 w F G1) as [c E]; [right; right; exists o; tauto|]. fold l in E.
  eexists. split; [exact E|]. split.
  - intros s d I. cbn [files]. apply puts_in; [|exact I]. unfold l.
    destruct (run_fastercap_ a); cbn; repeat constructor; cbn; intuition discriminate.
  - apply puts_only.
Qed.

(** * The hypotheses are met *)
(** contents are strings; a matrix is the text of the log *)
Definition demo : @tools string string :=
  Tools "lst" (fun o => match o with Some s => (("F" ++ s)%string, true) | None => ("nothing", false) end)
        (fun o => match o with Some s => (("f" ++ s)%string, true) | None => ("nothing", false) end)
        (fun s => Some s) (fun s => Some s) (fun m => ("avg " ++ m)%string) (fun m => ("csv " ++ m)%string)
        (fun m => ("exp " ++ m)%string) (fun m => ("expcsv " ++ m)%string) (fun m => ("red " ++ m)%string) "rdb" "csv25" "spice25".
Definition here : @world string := World ["home"; "u"] [(["home"; "u"; "x.gds"], "layout")].
Definition all_abs : args := Args (Abs ["tmp"; "out"; "x__top"]) "top" true true true.
Definition all_rel : args := Args (Rel ["output"; "x__top"]) "top" true true true.

Example C83_met : fastercap_gives demo "Flst" /\ fastcap_gives demo "flst" /\ absolute (out all_abs).
Proof. repeat split. Qed.
Example C83_abs_runs :
  exists w1, engines demo all_abs here = (w1, Some tt) /\ List.length (files w1) = 16%nat /\
    dget (files w1) ["tmp"; "out"; "x__top"; "top_FastCap2_Reduced_Netlist.cir"] = Some "red avg flst" /\
    dget (files w1) ["tmp"; "out"; "x__top"; "top_k25d_pex_netlist.csv"] = Some "csv25".
Proof. eexists. split; [vm_compute; reflexivity|]. repeat split; vm_compute; reflexivity. Qed.
Example C83_rel_met :
  dget (files here) (out_dir all_rel here ++ ["FasterCap_Input_Files"] ++ ["output"; "x__top"] ++
    [(cell all_rel ++ "_FastCap2_Output.txt")%string]) = None.
Proof. vm_compute. reflexivity. Qed.
Example C83_rel_runs :
  exists w1, engines demo all_rel here = (w1, None) /\ List.length (files w1) = 9%nat /\
    dget (files w1) ["home"; "u"; "output"; "x__top"; "top_FastCap2_Output.txt"] = Some "flst" /\
    dget (files w1) ["home"; "u"; "output"; "x__top"; "top_FastCap2_Result_Matrix_Raw.csv"] = None.
Proof. eexists. split; [vm_compute; reflexivity|]. repeat split; vm_compute; reflexivity. Qed.
Example C83_fail_met : exists T : @tools string string, snd (fastercap T (Some (lst_data T))) = false /\ snd (fastcap T (Some (lst_data T))) = false.
Proof.
  exists (Tools "" (fun _ => ("", false)) (fun _ => ("", false)) (fun s => Some s) (fun s => Some s) (fun m => m) (fun m => m) (fun m => m)
    (fun m => m) (fun m => m) "" "" ""). split; reflexivity.
Qed.

Print Assumptions C83_results_partial.
Print Assumptions C83_fastercap_failed.
Print Assumptions C83_fastcap_failed.
Print Assumptions C83_relative_refuted.
