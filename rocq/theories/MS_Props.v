(** C80-C82: the script for Magic and the logs of external tools. *)
From Coq Require Import String Ascii ZArith Lia.
From Verif Require Import PyBase PyLib PyStr MS_Model MS_Spec MS_Proofs.
Local Open Scope list_scope.
Local Open Scope string_scope.

(** ** C80: Magic is given the commands that were asked for *)
(** For names and paths without blanks and Tcl's special characters, Tcl reads exactly the commands that belong to the mode, with the
    user's thresholds, modes and paths at their places, and the halo rounded to the nearest unit of Magic.  Whatever variables Tcl has. *)
Theorem C80_commands : forall abspath show version vars q,
  plain (abspath (q_gds q)) -> plain (q_cell q) -> plain (abspath (q_dir q)) -> plain (abspath (q_out q)) -> (forall v, plain (show v)) -> one_comment version ->
  exists halo, halo_text (q_halo q) halo /\
  tcl vars (prepare_magic_script abspath show version q) =
    Reading (intended (abspath (q_gds q)) (q_cell q) (abspath (q_dir q)) (abspath (q_out q)) (q_mode q)
                      (show (q_cthresh q)) (show (q_rthresh q)) (show (q_tolerance q)) halo (short_word (q_short q)) (merge_word (q_merge q))) [] AtStart.
Proof.
  intros abspath show version vars q G C D O S V. exists (halo_word (q_halo q)). split.
  - destruct (q_halo q) as [x|]; [|exact I]. exists (py_round (x * Q2Qc 200)%Qc). split; [reflexivity|apply py_round_near].
  - replace (short_word (q_short q)) with (short_text (q_short q)) by (destruct (q_short q); reflexivity).
    replace (merge_word (q_merge q)) with (merge_text (q_merge q)) by (destruct (q_merge q); reflexivity).
    apply script_commands. unfold clean. auto 10.
Qed.
Print Assumptions C80_commands.

Definition text0 (v : Qc) : string := "0".
Definition req0 (gds cell : string) : request := Request gds cell "/run" "/run/out.spice" MCC 0%Qc 0%Qc 0%Qc None ShortNone MergeNone.

(** A blank in the path of the layout: Magic is told to read something else. *)
Theorem C80_blank_refuted : exists version q, plain (q_cell q) /\ plain (q_dir q) /\ plain (q_out q) /\ one_comment version /\ q_gds q = "/home/my user/inv.gds" /\
  forall vars, exists rest, tcl vars (prepare_magic_script (fun p => p) text0 version q) =
    Reading ([["crashbackups"; "stop"]; ["drc"; "off"]; ["gds"; "read"; "/home/my"; "user/inv.gds"]] ++ rest)%list [] AtStart.
Proof.
  exists "0.3", (req0 "/home/my user/inv.gds" "inv").
  split; [apply plain_lit; reflexivity|]. split; [apply plain_lit; reflexivity|]. split; [apply plain_lit; reflexivity|]. split; [reflexivity|]. split; [reflexivity|].
  intros vars. exists (match tcl (fun _ => None) (prepare_magic_script (fun p => p) text0 "0.3" (req0 "/home/my user/inv.gds" "inv")) with Reading c _ _ => skipn 3 c | _ => [] end).
  vm_compute. reflexivity.
Qed.
Print Assumptions C80_blank_refuted.

Lemma var_stop vars v d ws w pre text rest : vars v = None -> v <> "" -> text = pre ++ String nl rest ->
  read_all vars (Reading [] [] AtStart) pre = Reading d ws (InVar w v) -> read_all vars (Reading [] [] AtStart) text = Failed d.
Proof.
  intros E N -> P. rewrite rd_app, P. cbn [read_all read_char]. change (is_name nl) with false. change (is_quoting nl) with false. cbn iota.
  destruct (String.eqb_spec v ""); [contradiction|]. rewrite E. generalize rest. induction rest0; cbn; auto.
Qed.
Definition dollar_script : string := Eval vm_compute in prepare_magic_script (fun p => p) text0 "0.3" (req0 "/inv.gds" "INV$1").
Definition dollar_pre : string := "# Generated by kpex 0.3" ++ String nl ("crashbackups stop" ++ String nl ("drc off" ++ String nl ("gds read /inv.gds" ++ String nl "load INV$1"))).
Definition dollar_rest : string := Eval vm_compute in substring (S (String.length dollar_pre)) 1000 (snoc dollar_script nl).

(** A $ in the name of the cell, as KLayout makes them: Tcl stops when it should load the cell. *)
Theorem C80_dollar_refuted : exists version q, plain (q_gds q) /\ plain (q_dir q) /\ plain (q_out q) /\ one_comment version /\ q_cell q = "INV$1" /\
  forall vars, vars "1" = None -> tcl vars (prepare_magic_script (fun p => p) text0 version q) =
    Failed [["crashbackups"; "stop"]; ["drc"; "off"]; ["gds"; "read"; "/inv.gds"]].
Proof.
  exists "0.3", (req0 "/inv.gds" "INV$1").
  split; [apply plain_lit; reflexivity|]. split; [apply plain_lit; reflexivity|]. split; [apply plain_lit; reflexivity|]. split; [reflexivity|]. split; [reflexivity|].
  intros vars E. unfold tcl. apply (var_stop vars "1" _ ["load"] "INV" dollar_pre _ dollar_rest E); [discriminate|vm_compute; reflexivity|vm_compute; reflexivity].
Qed.
Print Assumptions C80_dollar_refuted.

(** ** C81: what Magic extracts *)
Lemma layout_get gds l n : In n l -> dget (map (fun x => (x, Read gds x)) l) n = Some (Read gds n).
Proof. induction l as [|a l IH]; [intros []|]. intros H. cbn [map dget]. destruct (eq_dec n a); [now subst|]. destruct H; [congruence|auto]. Qed.
Lemma layout_none gds l n : ~ In n l -> dget (map (fun x => (x, Read gds x)) l) n = None.
Proof. induction l as [|a l IH]; [reflexivity|]. intros H. cbn [map dget]. destruct (eq_dec n a); [subst; exfalso; apply H; now left|]. apply IH. intros I. apply H. now right. Qed.
Lemma layout_wf gds l : NoDup l -> dwf (map (fun x => (x, Read gds x)) l).
Proof. intros N. unfold dwf, dkeys. rewrite map_map. cbn [fst]. now rewrite map_id. Qed.
Lemma flat_neq s : s ++ "_flat" <> s.
Proof. intros E. apply (f_equal String.length) in E. rewrite MG_Run.PyStr_len in E. cbn in E. lia. Qed.
Lemma last_in_snoc d c l x : x_cell x = c -> last_in d c (l ++ [(d, x)])%list = Some x.
Proof. intros E. unfold last_in. rewrite rev_app_distr. cbn. now rewrite String.eqb_refl, E, String.eqb_refl. Qed.

Lemma obey_app layout m a b : obey layout m (a ++ b) = obey layout (obey layout m a) b.
Proof. apply fold_left_app. Qed.

Lemma back_part layout dir out mode ct rt tolt halo short merge cell k cells e s tol disk :
  dget cells cell = Some k ->
  m_netlists (obey layout (Magic cells (Some cell) (Some dir) e s tol disk [] false) (
    match halo with Some h => [["extract"; "halo"; h]] | None => [] end ++
    when (wants_r mode) [["extract"; "do"; "resistance"]] ++
    when (negb (wants_c mode)) [["extract"; "no"; "capacitance"]; ["extract"; "no"; "coupling"]] ++
    [["extract"; "all"]] ++
    when (wants_r mode) [["ext2sim"; "labels"; "on"]; ["ext2sim"]; ["extresist"; "tolerance"; tolt]; ["extresist"; "all"]] ++
    [["ext2spice"; "short"; short]; ["ext2spice"; "merge"; merge]] ++
    when (wants_c mode) [["ext2spice"; "cthresh"; ct]] ++
    when (wants_r mode) [["ext2spice"; "rthresh"; rt]; ["ext2spice"; "extresist"; "on"]] ++
    [["ext2spice"; "subcircuits"; "top"; "on"]; ["ext2spice"; "format"; "ngspice"]; ["ext2spice"; "-p"; dir; "-o"; out]; ["quit"; "-noprompt"]]))%list =
  [Netlist out dir (Some (Extraction cell k (asked_e mode halo e) (if wants_r mode then Some (Some tolt) else None))) (asked_s mode short merge ct rt s)].
Proof.
  intros K. destruct e as [er ec eo eh], s as [s1 s2 s3 s4 s5 s6 s7]. unfold asked_e, asked_s, when. destruct mode, halo as [h|]; cbn -[last_in dget]; unfold current; cbn -[last_in dget]; rewrite ?K;
    repeat (rewrite last_in_snoc by reflexivity; cbn -[last_in dget]); reflexivity.
Qed.

Theorem C81_extracted : forall layout gds cell dir out mode ct rt tolt halo short merge e s tol disk,
  NoDup (layout gds) -> In cell (layout gds) -> ~ In (cell ++ "_flat") (layout gds) ->
  m_netlists (obey layout (started e s tol disk) (intended gds cell dir out mode ct rt tolt halo short merge)) =
  [Netlist out dir (Some (Extraction cell (Flat (Read gds cell)) (asked_e mode halo e) (if wants_r mode then Some (Some tolt) else None))) (asked_s mode short merge ct rt s)].
Proof.
  intros layout gds cell dir out mode ct rt tolt halo short merge e s tol disk N I F. unfold intended. rewrite obey_app.
  set (L := map (fun n => (n, Read gds n)) (layout gds)). set (cf := cell ++ "_flat") in *. pose proof (flat_neq cell) as Nq. fold cf in Nq.
  set (c3 := dset (dremove (dremove (dset L cf (Flat (Read gds cell))) cell) cf) cell (Flat (Read gds cell))).
  match goal with |- m_netlists (obey _ (obey _ _ ?p) _) = _ => assert (P : obey layout (started e s tol disk) p = Magic c3 (Some cell) (Some dir) e s tol disk [] false) end.
  { assert (W : dwf L) by (apply layout_wf, N). assert (W1 : dwf (dset L cf (Flat (Read gds cell)))) by (apply dwf_dset, W).
    unfold obey, started. cbn -[dget dset dremove dmem eqb cf]. fold L. unfold current. cbn -[dget dset dremove dmem eqb cf].
    assert (G1 : dget L cell = Some (Read gds cell)) by (apply layout_get, I).
    assert (G2 : dmem L cell = true) by (unfold dmem; now rewrite G1). rewrite G2. cbn -[dget dset dremove dmem eqb cf].
    assert (G3 : dmem L cf = false) by (unfold dmem, L; now rewrite layout_none). rewrite G3, G1. cbn -[dget dset dremove dmem eqb cf].
    assert (G4 : dmem (dset L cf (Flat (Read gds cell))) cf = true) by (unfold dmem; now rewrite dget_dset_same). rewrite G4. cbn -[dget dset dremove dmem eqb cf].
    replace (eqb (Some cf) (Some cell)) with false by (symmetry; apply eqb_false; congruence).
    cbn -[dget dset dremove dmem eqb cf]. rewrite (dget_dremove _ _ W1). destruct (eq_dec cf cell); [congruence|]. rewrite dget_dset_same.
    assert (G5 : dmem (dremove (dset L cf (Flat (Read gds cell))) cell) cell = false).
    { unfold dmem. rewrite (dget_dremove _ _ W1). destruct (eq_dec cell cell); [reflexivity|congruence]. }
    rewrite G5. cbn -[dget dset dremove dmem eqb cf]. rewrite eqb_refl. reflexivity. }
  rewrite P. apply back_part. unfold c3. now rewrite dget_dset_same.
Qed.
Print Assumptions C81_extracted.

(** From the request to the netlist. *)
Theorem C81_run : forall layout abspath show version vars q e s tol disk,
  plain (abspath (q_gds q)) -> plain (q_cell q) -> plain (abspath (q_dir q)) -> plain (abspath (q_out q)) -> (forall v, plain (show v)) -> one_comment version ->
  NoDup (layout (abspath (q_gds q))) -> In (q_cell q) (layout (abspath (q_gds q))) -> ~ In (q_cell q ++ "_flat") (layout (abspath (q_gds q))) ->
  exists halo cmds, halo_text (q_halo q) halo /\ tcl vars (prepare_magic_script abspath show version q) = Reading cmds [] AtStart /\
    m_netlists (obey layout (started e s tol disk) cmds) =
      [Netlist (abspath (q_out q)) (abspath (q_dir q))
         (Some (Extraction (q_cell q) (Flat (Read (abspath (q_gds q)) (q_cell q))) (asked_e (q_mode q) halo e) (if wants_r (q_mode q) then Some (Some (show (q_tolerance q))) else None)))
         (asked_s (q_mode q) (short_word (q_short q)) (merge_word (q_merge q)) (show (q_cthresh q)) (show (q_rthresh q)) s)].
Proof.
  intros layout abspath show version vars q e s tol disk G C D O S V N I F.
  destruct (C80_commands abspath show version vars q G C D O S V) as (halo & Hh & T). exists halo. eexists. split; [exact Hh|]. split; [exact T|].
  now apply C81_extracted.
Qed.
Print Assumptions C81_run.

(** If the layout has a cell <name>_flat already, the netlist of <name> is that of the other cell. *)
Theorem C81_taken_refuted : exists layout e s, NoDup (layout "/a.gds") /\ In "inv" (layout "/a.gds") /\
  exists x st, m_netlists (obey layout (started e s None []) (intended "/a.gds" "inv" "/d" "/o" MCC "0" "0" "1" None "none" "none")) =
    [Netlist "/o" "/d" (Some (Extraction "inv" (Read "/a.gds" "inv_flat") x None)) st].
Proof.
  exists (fun _ => ["inv"; "inv_flat"]), (ESet false true true None), (SSet None None None None false false None).
  split; [repeat constructor; cbn; intuition discriminate|]. split; [now left|]. eexists. eexists. vm_compute. reflexivity.
Qed.
Print Assumptions C81_taken_refuted.
(** A cell that is not in the layout gives a netlist of nothing. *)
Theorem C81_missing_refuted : exists layout e s, ~ In "inv" (layout "/a.gds") /\
  exists x st, m_netlists (obey layout (started e s None []) (intended "/a.gds" "inv" "/d" "/o" MCC "0" "0" "1" None "none" "none")) =
    [Netlist "/o" "/d" (Some (Extraction "inv" (Flat Nothing) x None)) st].
Proof.
  exists (fun _ => ["nand"]), (ESet false true true None), (SSet None None None None false false None).
  split; [cbn; intuition discriminate|]. eexists. eexists. vm_compute. reflexivity.
Qed.
Print Assumptions C81_missing_refuted.

(** ** C82: logs of external tools *)
(** The log holds everything the tool printed, and a tool that fails is reported; the console shows the lines. *)
Theorem C82_log : forall strict t, s_log (run_tool strict t) = t_output t /\ (s_raised (run_tool strict t) = true <-> strict = true /\ t_status t <> 0%Z).
Proof.
  intros strict [out st]. unfold run_tool. cbn [t_output t_status]. rewrite copy_lines_app. cbn [s_log s_raised append]. rewrite readlines_concat. split; [reflexivity|].
  destruct (Z.eqb_spec st 0); split; intros; try discriminate; intuition.
Qed.
Print Assumptions C82_log.
Theorem C82_console_partial : forall strict ls st, Forall no_nl ls -> s_console (run_tool strict (Tool (ended ls) st)) = ls.
Proof.
  intros strict ls st F. unfold run_tool. cbn [t_output]. rewrite copy_lines_app. cbn [s_console app]. pose proof (readlines_ended ls "" F eq_refl) as R.
  rewrite PyStr.str_app_nil in R. rewrite R. cbn [String.eqb]. rewrite app_nil_r, map_map. rewrite <- (map_id ls) at 2. apply map_ext. intros l. apply but_last_snoc.
Qed.
Print Assumptions C82_console_partial.
(** A last line that is not ended loses its last character on the console. *)
Theorem C82_console_refuted : forall strict ls l c st, Forall no_nl ls -> no_nl (l ++ String c "") ->
  s_console (run_tool strict (Tool (ended ls ++ l ++ String c "") st)) = (ls ++ [l])%list.
Proof.
  intros strict ls l c st F R. unfold run_tool. cbn [t_output]. rewrite copy_lines_app. cbn [s_console app]. rewrite (readlines_ended ls _ F R).
  destruct (String.eqb_spec (l ++ String c "") ""); [destruct l; discriminate|]. rewrite map_app, map_map. cbn [map]. rewrite but_last_snoc. f_equal.
  rewrite <- (map_id ls) at 2. apply map_ext. intros x. apply but_last_snoc.
Qed.
Print Assumptions C82_console_refuted.

(** ** the hypotheses are met *)
Definition ex_q : request := Request "/gds/inv.gds" "inv_1" "/run" "/run/inv.spice" MRC (Q2Qc (1 # 100)) (Q2Qc 100) 1%Qc (Some (Q2Qc (25 # 10))) ShortResistor MergeAggressive.
Example ex_words : plain "/gds/inv.gds" /\ plain "inv_1" /\ plain "/run" /\ plain "/run/inv.spice" /\ one_comment "0.3.2" /\ plain "0.01".
Proof. repeat split; try discriminate. Qed.
Example ex_commands : match tcl (fun _ => None) (prepare_magic_script (fun p => p) (fun _ => "0.01") "0.3.2" ex_q) with
  | Reading cmds [] AtStart => (nth 11 cmds [], nth 12 cmds [], List.length cmds) = (["extract"; "halo"; "500"], ["extract"; "do"; "resistance"], 27%nat) | _ => False end.
Proof. vm_compute. reflexivity. Qed.
(** round half to even: 1.5 units to 2, 2.5 units to 2 *)
Example ex_round : (py_round (Q2Qc (3 # 2)), py_round (Q2Qc (5 # 2)), py_round (Q2Qc (- 5 # 2)), py_round (Q2Qc (7 # 4))) = (2, 2, -2, 2)%Z.
Proof. vm_compute. reflexivity. Qed.
Example ex_layout : let layout := fun p : string => if String.eqb p "/gds/inv.gds" then ["inv_1"; "nmos"] else [] in
  NoDup (layout "/gds/inv.gds") /\ In "inv_1" (layout "/gds/inv.gds") /\ ~ In ("inv_1" ++ "_flat") (layout "/gds/inv.gds").
Proof. cbn. split; [repeat constructor; cbn; intuition discriminate|]. split; [now left|intuition discriminate]. Qed.
Example ex_console : s_console (run_tool true (Tool (ended ["Magic 8.3"; ""; "done"]) 0)) = ["Magic 8.3"; ""; "done"].
Proof. vm_compute. reflexivity. Qed.
