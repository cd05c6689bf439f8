(** C90: environment variables and the command lines of the tools. *)
From Coq Require Import String Ascii ZArith.
From Verif Require Import PyBase PyLib PyStr EV_Model EV_Spec.
Local Open Scope string_scope.
Local Open Scope list_scope.

(** ** Environment *)
Lemma env_get nt E v : In v all_vars -> getitem (from_os_environ nt E) v = match dget E (var_name v) with Some x => Some x | None => default_value nt v end.
Proof. intros _. unfold getitem, from_os_environ, all_vars. cbn [fold_left]. rewrite !dget_dset. destruct v; reflexivity. Qed.

(** A run takes each program from its variable, or else the documented default, and the file for Magic from --magicrc, or else from
    PDKPATH and PDK. *)
Theorem C90_env : forall abspath nt E rc s, start abspath nt E (Run rc) = Some (Args s) ->
  (exists v, fastcap_exe_path s = Some v /\ or_default E "KPEX_FASTCAP_EXE" "fastcap" v) /\
  (exists v, fastercap_exe_path s = Some v /\ or_default E "KPEX_FASTERCAP_EXE" "FasterCap" v) /\
  (exists v, klayout_exe_path s = Some v /\ or_default E "KPEX_KLAYOUT_EXE" (if nt then "klayout_app" else "klayout") v) /\
  (exists v, magic_exe_path s = Some v /\ or_default E "KPEX_MAGIC_EXE" "magic" v) /\
  (forall p, magicrc_path s = Some p <->
     rc = Some p \/ (rc = None /\ exists d k, dget E "PDKPATH" = Some d /\ dget E "PDK" = Some k /\
                     p = abspath (d ++ "/libs.tech/magic/" ++ k ++ ".magicrc")%string)).
Proof.
  intros abspath nt E rc s H. unfold start, parse_args in H.
  destruct (default_magicrc abspath E) as [d|] eqn:M; [|discriminate H]. injection H as <-.
  cbn [fastcap_exe_path fastercap_exe_path klayout_exe_path magic_exe_path magicrc_path].
  rewrite !env_get by (cbn; tauto). cbn [var_name default_value]. unfold or_default.
  split; [|split; [|split; [|split]]].
  1-4: match goal with |- context [dget ?e ?n] => destruct (dget e n) as [x|] end; eexists; (split; [reflexivity|]); auto.
  intros p. unfold default_magicrc in M. destruct rc as [q|].
  - split; [intros [= ->]; now left|]. intros [[= ->]|[X _]]; [reflexivity|discriminate X].
  - destruct (dget E "PDKPATH") as [pp|]; [destruct (dget E "PDK") as [k|]; [|discriminate M]|]; injection M as <-.
    + split; [intros [= <-]; right; split; [reflexivity|now exists pp, k]|].
      intros [X|(_ & d & k' & [= <-] & [= <-] & ->)]; [discriminate X|reflexivity].
    + split; [discriminate|]. intros [X|(_ & d & k & X & _)]; discriminate X.
Qed.
(** The call fails exactly if PDKPATH is set and PDK is not. *)
Theorem C90_start : forall abspath nt E c, start abspath nt E c = None <-> dget E "PDKPATH" <> None /\ dget E "PDK" = None.
Proof.
  intros abspath nt E c. unfold start, parse_args, default_magicrc.
  destruct (dget E "PDKPATH"), (dget E "PDK"), c; split; intros H; try discriminate H; try (destruct H; congruence); split; congruence.
Qed.
(** Refuted: both variables are optional, but with one of them alone not even the help can be shown, and no engine runs. *)
Theorem C90_pdk_refuted : exists E, forall abspath nt c, start abspath nt E c = None.
Proof. exists [("PDKPATH", "/home/user/.volare")]. intros. apply C90_start. now split. Qed.

(** ** Command lines *)
Lemma num_head p s x : numeric s -> isdigit x = false -> x <> "-"%char -> s <> String x p.
Proof. intros (c & t & -> & H) D N [= -> ->]. destruct H as [H|H]; congruence. Qed.

Lemma eqb_no a b : a <> b -> String.eqb a b = false.
Proof. apply String.eqb_neq. Qed.
Lemma reads_tolerance s : numeric s -> fastercap_reads ("-a" ++ s) = Tolerance s.
Proof.
  intros N. unfold fastercap_reads. cbn [append]. rewrite (eqb_no _ "-ap"); [reflexivity|].
  intros [= ->]. now apply (num_head "" "p" "p"%char N).
Qed.
Lemma reads_coefficient s : fastercap_reads ("-d" ++ s) = Coefficient s. Proof. reflexivity. Qed.
Lemma reads_mesh s : fastercap_reads ("-m" ++ s) = Mesh s. Proof. reflexivity. Qed.
Lemma reads_ooc s : fastercap_reads ("-f" ++ s) = OutOfCore s. Proof. reflexivity. Qed.
Lemma reads_input s : plain_path s -> fastercap_reads s = Input s.
Proof.
  unfold plain_path, fastercap_reads. intros P. destruct s as [|c s]; [reflexivity|].
  cbn [after] in P |- *. destruct (Ascii.eqb "-" c) eqn:E; [discriminate P|].
  assert (F : forall t, String.eqb (String c s) (String "-" t) = false).
  { intros t. apply eqb_no. intros [= -> ->]. discriminate E. }
  rewrite !F. reflexivity.
Qed.

(** FasterCap gets exactly the settings asked for, each once, and the list file. *)
Theorem C90_fastercap : forall show exe lst o, (forall q, numeric (show q)) -> plain_path lst ->
  exists args, fastercap_args show exe lst o = exe :: args /\ NoDup (map fastercap_reads args) /\
    forall f, In f (map fastercap_reads args) <-> fastercap_wanted show lst o f.
Proof.
  intros show exe lst o N P. unfold fastercap_args.
  exists (["-b"; "-i"; "-v"; "-a" ++ show (o_tolerance o); "-d" ++ show (o_d_coeff o); "-m" ++ show (o_mesh o)]%string
    ++ match o_ooc o with Some n => ["-f" ++ num_text show n]%string | None => [] end
    ++ (if o_auto_precond o then ["-ap"] else []) ++ (if o_galerkin o then ["-g"] else []) ++ (if o_jacobi o then ["-pj"] else []) ++ [lst]).
  split; [reflexivity|].
  rewrite !map_app. cbn [map]. rewrite reads_tolerance by apply N. rewrite reads_coefficient, reads_mesh, (reads_input lst P).
  destruct o as [t d m f a g j]. cbn [o_tolerance o_d_coeff o_mesh o_ooc o_auto_precond o_galerkin o_jacobi].
  assert (B : fastercap_reads "-b" = Console /\ fastercap_reads "-i" = Details /\ fastercap_reads "-v" = Verbose) by now repeat split.
  destruct B as (-> & -> & ->).
  assert (G : fastercap_reads "-ap" = AutoPreconditioner /\ fastercap_reads "-g" = Galerkin /\ fastercap_reads "-pj" = Jacobi) by now repeat split.
  destruct G as (E1 & E2 & E3).
  split.
  - destruct f as [n|], a, g, j; cbn [map app]; rewrite ?E1, ?E2, ?E3, ?reads_ooc; repeat constructor; cbn; intuition discriminate.
  - intros x. destruct f as [n|], a, g, j; cbn [map app]; rewrite ?E1, ?E2, ?E3, ?reads_ooc;
    destruct x; cbn;
    (split; [intros H; repeat destruct H as [H|H]; try discriminate H; try contradiction; try injection H as <-; try exact I; try reflexivity; try (now exists n)
            |intros H; try discriminate H; try contradiction; try destruct H as (n' & [= <-] & ->); try destruct H as (n' & X & _); try discriminate X; subst; tauto]).
Qed.

Lemma fc_reads_l s : fastcap_reads ("-l" ++ s) = ListFile s. Proof. reflexivity. Qed.
Lemma fc_reads_o s : fastcap_reads ("-o" ++ s) = Order s. Proof. reflexivity. Qed.
Lemma fc_reads_d s : fastcap_reads ("-d" ++ s) = Depth s. Proof. reflexivity. Qed.
Lemma fc_reads_p s : fastcap_reads ("-p" ++ s) = Permittivity s. Proof. reflexivity. Qed.
Lemma fc_reads_t s : fastcap_reads ("-t" ++ s) = Accuracy s. Proof. reflexivity. Qed.
(** The same for FastCap. *)
Theorem C90_fastcap : forall show exe lst o,
  exists args, fastcap_args show exe lst o = exe :: args /\ NoDup (map fastcap_reads args) /\
    forall f, In f (map fastcap_reads args) <-> fastcap_wanted show lst o f.
Proof.
  intros show exe lst o. unfold fastcap_args.
  exists (["-o" ++ num_text show (f_order o)]%string ++ (if String.eqb (f_depth o) "auto" then [] else ["-d" ++ f_depth o]%string)
    ++ ["-p" ++ show (f_permittivity o); "-t" ++ show (f_tolerance o); "-l" ++ lst]%string).
  split; [reflexivity|].
  rewrite !map_app. cbn [map]. rewrite fc_reads_o, fc_reads_p, fc_reads_t, fc_reads_l.
  destruct (String.eqb (f_depth o) "auto") eqn:D; [apply String.eqb_eq in D|apply String.eqb_neq in D]; cbn [map app]; rewrite ?fc_reads_d.
  - split; [repeat constructor; cbn; intuition discriminate|].
    intros x. destruct x; cbn; intuition (try discriminate; try congruence).
  - split; [repeat constructor; cbn; intuition discriminate|].
    intros x. destruct x; cbn; intuition (try discriminate; try congruence).
Qed.

(** kpex asks for multipoles of order two, a permittivity of one and a tolerance of one percent, and nothing else. *)
Theorem C90_fastcap_kpex : forall show exe lst, exists args, fastcap_args show exe lst fastcap_defaults = exe :: args /\
  map fastcap_reads args = [Order "2"; Permittivity (show 1%Qc); Accuracy (show (Q2Qc (1 # 100))); ListFile lst].
Proof.
  intros show exe lst. exists ["-o2"; "-p" ++ show 1%Qc; "-t" ++ show (Q2Qc (1 # 100)); "-l" ++ lst]%string. split; [reflexivity|].
  cbn [map]. now rewrite fc_reads_p, fc_reads_t, fc_reads_l.
Qed.

(** KLayout runs the script of the PDK in batch mode on the layout and the schematic, writes the report where it is read, and is told to keep
    every net and device; each variable is defined once. *)
Theorem C90_klayout : forall abspath exe script gds schematic lvsdb verbose,
  exists args, lvs_args abspath exe script gds schematic lvsdb verbose = exe :: args /\ NoDup (klayout_reads args) /\
    (forall n v w, In (Define_ n v) (klayout_reads args) -> In (Define_ n w) (klayout_reads args) -> v = w) /\
    forall f, In f (klayout_reads args) <-> klayout_wanted script (abspath gds) (abspath schematic) (abspath lvsdb) verbose f.
Proof.
  intros abspath exe script gds schematic lvsdb verbose. unfold lvs_args. eexists. split; [reflexivity|].
  set (v := if verbose then "true" else "false"). generalize (abspath gds) (abspath schematic) (abspath lvsdb). intros i s r.
  match goal with |- context [klayout_reads ?l] => set (L := klayout_reads l) end.
  assert (E : L = [Batch; Script script; Define_ "input" i; Define_ "report" r; Define_ "schematic" s; Define_ "thr" "22"; Define_ "run_mode" "deep";
    Define_ "spice_net_names" "true"; Define_ "spice_comments" "false"; Define_ "scale" "false"; Define_ "verbose" v;
    Define_ "schematic_simplify" "false"; Define_ "net_only" "false"; Define_ "top_lvl_pins" "true"; Define_ "combine" "false";
    Define_ "combine_devices" "false"; Define_ "purge" "false"; Define_ "purge_nets" "false"; Define_ "no_simplify" "true"]) by reflexivity.
  clearbody L. subst L. split; [|split].
  - repeat constructor; cbn [In]; intros H; repeat destruct H as [H|H]; try discriminate H; exact H.
  - intros n a b A B. cbn [In] in A, B. repeat destruct A as [A|A]; try discriminate A; try contradiction; injection A as <- <-;
    repeat destruct B as [B|B]; try discriminate B; try contradiction; now injection B.
  - intros f. cbn [In]. destruct f as [|x|n w|x]; cbn [klayout_wanted lvs_switches In].
    + split; [intros _; exact I|intros _; now left].
    + split; [intros H; repeat destruct H as [H|H]; try discriminate H; try contradiction; now injection H|intros ->; tauto].
    + split.
      * intros H; repeat destruct H as [H|H]; try discriminate H; try contradiction; injection H as <- <-; tauto.
      * intros H; repeat destruct H as [H|H]; try contradiction; try (injection H as <- <-; tauto); destruct H as [-> ->]; tauto.
    + split; [intros H; repeat destruct H as [H|H]; try discriminate H; contradiction|contradiction].
Qed.

(** Magic runs without a display, with the configuration and the script; without a configuration file it is not started. *)
Theorem C90_magic : forall exe rc script, no_option ["-dnull"; "-noconsole"; "-rcfile"] script ->
  match magic_args exe rc script with
  | Some args => exists r, rc = Some r /\ args = exe :: tl args /\
      magic_reads (tl args) = [Switch "-dnull"; Switch "-noconsole"; Value "-rcfile" r; Word script]
  | None => rc = None
  end.
Proof.
  intros exe [r|] script N; cbn [magic_args]; [|reflexivity]. exists r. split; [reflexivity|]. split; [reflexivity|].
  cbn [tl]. unfold magic_reads, words. cbn -[String.eqb]. 
  assert (A : String.eqb script "-dnull" = false /\ String.eqb script "-noconsole" = false).
  { split; apply eqb_no; intros ->; apply N; cbn; tauto. }
  destruct A as [-> ->]. reflexivity.
Qed.
(** Refuted: a run with Magic that passes the checks although there is no configuration file fails in the end. *)
Theorem C90_magicrc_refuted : exists E (s : bool -> settings), (forall abspath nt, start abspath nt E (Run None) = Some (Args (s nt))) /\
  (forall isfile (which : string -> option string) nt, (forall x, which x <> Some "" /\ which x <> None) -> exe_errors isfile which (s nt) = false) /\
  (forall nt exe script, magic_exe_path (s nt) = Some exe -> magic_args exe (magicrc_path (s nt)) script = None).
Proof.
  exists [], (fun nt : bool => Settings (Some "fastcap") (Some "FasterCap") (Some (if nt then "klayout_app" else "klayout")) (Some "magic") None).
  split; [reflexivity|]. split; [|reflexivity].
  intros isfile which nt H. unfold exe_errors. cbn [klayout_exe_path]. destruct (isfile _); [reflexivity|].
  destruct (H (if nt then "klayout_app" else "klayout")) as [A B]. destruct (which _) as [[|c q]|]; congruence.
Qed.
(** netlistsvg gets the output, the skin, the layout settings if any, and the netlist. *)
Theorem C90_netlistsvg : forall exe skin json out elk,
  exists args, netlistsvg_args exe skin json out elk = exe :: args /\
    netlistsvg_reads args = [Value "-o" out; Value "--skin" skin] ++ match elk with Some p => [Value "--layout" p] | None => [] end ++ [Word json].
Proof. intros exe skin json out elk. eexists. split; [reflexivity|]. destruct elk; reflexivity. Qed.

(** ** The check of the programs *)
(** Only KLayout is looked for. *)
Theorem C90_check : forall isfile which s, exe_errors isfile which s = false <-> found isfile which (klayout_exe_path s).
Proof.
  intros isfile which s. unfold exe_errors, found. destruct (klayout_exe_path s) as [p|]; [|split; [discriminate|intros (p & X & _); discriminate X]].
  destruct (isfile p) eqn:F.
  - split; [intros _; exists p; auto|reflexivity].
  - destruct (which p) as [[|c q]|] eqn:W.
    + split; [discriminate|]. intros (x & [= <-] & [X|(y & X & Y)]); congruence.
    + split; [intros _|reflexivity]. exists p. split; [reflexivity|]. right. exists (String c q). split; [exact W|discriminate].
    + split; [discriminate|]. intros (x & [= <-] & [X|(y & X & _)]); congruence.
Qed.
(** Refuted for the others: a run is started although a program that it needs is missing ... *)
Theorem C90_missing_refuted : exists isfile which s g t, starts g t /\ ~ found isfile which (exe_of s t) /\ exe_errors isfile which s = false.
Proof.
  exists (fun _ => false), (fun n => if String.eqb n "klayout" then Some "/usr/bin/klayout" else None),
    (Settings (Some "fastcap") (Some "FasterCap") (Some "klayout") (Some "magic") None), (Engines false true false false true), FasterCap.
  split; [reflexivity|]. split; [|reflexivity]. intros (p & [= <-] & [X|(q & X & _)]); discriminate X.
Qed.
(** ... and refused although every program that it needs is there. *)
Theorem C90_needless_refuted : exists isfile which s g, (exists t, starts g t) /\ (forall t, starts g t -> found isfile which (exe_of s t)) /\
  exe_errors isfile which s = true.
Proof.
  exists (fun _ => false), (fun n => if String.eqb n "magic" then Some "/usr/bin/magic" else None),
    (Settings (Some "fastcap") (Some "FasterCap") (Some "klayout") (Some "magic") (Some "/pdk/sky130A.magicrc")), (Engines false false true false true).
  split; [exists Magic; now split|]. split; [|reflexivity]. intros t H. destruct t; cbn in H; try discriminate H.
  - destruct H as [_ H]. intuition discriminate.
  - exists "magic". split; [reflexivity|]. right. exists "/usr/bin/magic". split; [reflexivity|discriminate].
Qed.

(** ** The program that is started *)
(** A name on the path and an absolute path mean the same program for both solvers, wherever the list file is. *)
Theorem C90_program : forall which cwd work_dir exe, work_dir <> "" -> (has_slash exe = false \/ exists t, exe = String "/" t) ->
  fastcap_program which cwd work_dir exe = program which cwd exe /\ fastercap_program which cwd work_dir exe = program which cwd exe.
Proof.
  intros which cwd wd exe N H. split; [|reflexivity]. unfold fastcap_program, program. destruct wd as [|c wd]; [congruence|].
  destruct H as [H|[t ->]]; [|reflexivity]. destruct exe as [|x exe]; [reflexivity|]. rewrite H. reflexivity.
Qed.
(** Refuted for relative paths: FastCap is looked for in the directory of its input. *)
Theorem C90_relative_refuted : exists cwd work_dir exe, forall which,
  program which cwd exe = Some "/home/user/tools/fastcap" /\
  fastcap_program which cwd work_dir exe = Some "/home/user/output/inv__inv/FasterCap_Input_Files/tools/fastcap".
Proof. exists "/home/user", "output/inv__inv/FasterCap_Input_Files", "tools/fastcap". now split. Qed.

(** ** Cases *)
Example C90_env_case : exists s, start (fun p => p) false [("KPEX_FASTERCAP_EXE", "/opt/FasterCap"); ("PDKPATH", "/pdks/sky130A"); ("PDK", "sky130A")] (Run None) = Some (Args s) /\
  (fastcap_exe_path s, fastercap_exe_path s, klayout_exe_path s, magic_exe_path s, magicrc_path s) =
  (Some "fastcap", Some "/opt/FasterCap", Some "klayout", Some "magic", Some "/pdks/sky130A/libs.tech/magic/sky130A.magicrc").
Proof. eexists. split; reflexivity. Qed.
Definition text (q : Qc) : string := if qeqb q (Q2Qc (1 # 2)) then "0.5" else "0.05".
Lemma text_numeric q : numeric (text q).
Proof. unfold text. destruct (qeqb q _); [exists "0"%char, ".5"|exists "0"%char, ".05"]; split; try reflexivity; now left. Qed.
Example C90_fastercap_case : plain_path "out/FasterCap_Input_.lst" /\
  fastercap_args text "FasterCap" "out/FasterCap_Input_.lst"
    (FasterCapOptions (Q2Qc (1 # 20)) (Q2Qc (1 # 2)) (Q2Qc (1 # 2)) (Some (Int "2")) true false true) =
  ["FasterCap"; "-b"; "-i"; "-v"; "-a0.05"; "-d0.5"; "-m0.5"; "-f2"; "-ap"; "-pj"; "out/FasterCap_Input_.lst"].
Proof. split; [reflexivity|]. vm_compute. reflexivity. Qed.
Example C90_fastcap_case : fastcap_args (fun q => if qeqb q 1 then "1.0" else "0.01") "fastcap" "FasterCap_Input_.lst" fastcap_defaults =
  ["fastcap"; "-o2"; "-p1.0"; "-t0.01"; "-lFasterCap_Input_.lst"].
Proof. vm_compute. reflexivity. Qed.
Example C90_magic_case : no_option ["-dnull"; "-noconsole"; "-rcfile"] "out/inv_MAGIC_CC_Mode_RC.tcl" /\
  magic_args "magic" (Some "/pdk/sky130A.magicrc") "out/inv_MAGIC_CC_Mode_RC.tcl" =
  Some ["magic"; "-dnull"; "-noconsole"; "-rcfile"; "/pdk/sky130A.magicrc"; "out/inv_MAGIC_CC_Mode_RC.tcl"].
Proof. split; [|reflexivity]. intros H. cbn in H. intuition discriminate. Qed.

Print Assumptions C90_env.
Print Assumptions C90_start.
Print Assumptions C90_pdk_refuted.
Print Assumptions C90_fastercap.
Print Assumptions C90_fastcap.
Print Assumptions C90_fastcap_kpex.
Print Assumptions C90_klayout.
Print Assumptions C90_magic.
Print Assumptions C90_magicrc_refuted.
Print Assumptions C90_netlistsvg.
Print Assumptions C90_check.
Print Assumptions C90_missing_refuted.
Print Assumptions C90_needless_refuted.
Print Assumptions C90_program.
Print Assumptions C90_relative_refuted.
