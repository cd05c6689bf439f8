(** Environment variables and the command lines of the external tools: klayout_pex/env.py, klayout_pex/kpex_cli.py L254-260, L303-307, L323-327,
    klayout_pex/fastercap/fastercap_runner.py, klayout_pex/fastcap/fastcap_runner.py, klayout_pex/magic/magic_runner.py,
    klayout_pex/klayout/lvs_runner.py, klayout_pex/netlistsvg/netlistsvg_runner.py.  An exception is [None]. *)
From Coq Require Import String Ascii ZArith.
From Verif Require Import PyBase PyLib PyStr.
Local Open Scope string_scope.
Local Open Scope list_scope.

(** env.py L33-39 *)
Inductive envvar := FASTCAP_EXE | FASTERCAP_EXE | KLAYOUT_EXE | MAGIC_EXE | PDK_PATH | PDK.
#[export] Instance EqDec_envvar : EqDec envvar. Proof. intros x y. decide equality. Defined.
Definition var_name (v : envvar) : string :=
  match v with
  | FASTCAP_EXE => "KPEX_FASTCAP_EXE" | FASTERCAP_EXE => "KPEX_FASTERCAP_EXE" | KLAYOUT_EXE => "KPEX_KLAYOUT_EXE"
  | MAGIC_EXE => "KPEX_MAGIC_EXE" | PDK_PATH => "PDKPATH" | PDK => "PDK"
  end.
(** env.py L41-52; [nt]: os.name is 'nt' *)
Definition default_value (nt : bool) (v : envvar) : option string :=
  match v with
  | FASTCAP_EXE => Some "fastcap"
  | FASTERCAP_EXE => Some "FasterCap"
  | KLAYOUT_EXE => Some (if nt then "klayout_app" else "klayout")
  | MAGIC_EXE => Some "magic"
  | PDK_PATH => None
  | PDK => None
  end.
Definition all_vars : list envvar := [FASTCAP_EXE; FASTERCAP_EXE; KLAYOUT_EXE; MAGIC_EXE; PDK_PATH; PDK].
(** env.py L72-80; [E] is os.environ *)
Definition from_os_environ (nt : bool) (E : dict string string) : dict envvar (option string) :=
  fold_left (fun d v => dset d v (match dget E (var_name v) with Some x => Some x | None => default_value nt v end)) all_vars [].
(** env.py L82-83; None in place of a KeyError, which cannot happen *)
Definition getitem (e : dict envvar (option string)) (v : envvar) : option string :=
  match dget e v with Some x => x | None => None end.

(** The part of the arguments that this is about; the rest of argparse is not modelled *)
Record settings := Settings { fastcap_exe_path : option string; fastercap_exe_path : option string; klayout_exe_path : option string;
  magic_exe_path : option string; magicrc_path : option string }.
(** what was asked for: help or version (argparse prints it and exits), or a run, perhaps with --magicrc *)
Inductive call := Help | Run (magicrc : option string).
Inductive parsed := Exit0 | Args (s : settings).

Section Paths.
(** os.path.abspath *)
Variable abspath : string -> string.
(** kpex_cli.py L254-257 *)
Definition default_magicrc (E : dict string string) : option (option string) :=
  match dget E "PDKPATH" with
  | None => Some None
  | Some p => match dget E "PDK" with
              | Some k => Some (Some (abspath (p ++ "/libs.tech/magic/" ++ k ++ ".magicrc")%string))
              | None => None
              end
  end.
(** kpex_cli.py L137-309: the default is worked out before the arguments are looked at *)
Definition parse_args (E : dict string string) (env : dict envvar (option string)) (c : call) : option parsed :=
  match default_magicrc E with
  | None => None
  | Some rc =>
      match c with
      | Help => Some Exit0
      | Run magicrc =>
          Some (Args (Settings (getitem env FASTCAP_EXE) (getitem env FASTERCAP_EXE) (getitem env KLAYOUT_EXE) (getitem env MAGIC_EXE)
                        (match magicrc with Some p => Some p | None => rc end)))
      end
  end.
(** kpex_cli.py L848-849 *)
Definition start (nt : bool) (E : dict string string) (c : call) : option parsed := parse_args E (from_os_environ nt E) c.

(** ** What validate_args asks of the tools *)
(** kpex_cli.py L323-327: [isfile] is os.path.isfile, [which] is shutil.which. True is an error. *)
Definition exe_errors (isfile : string -> bool) (which : string -> option string) (s : settings) : bool :=
  match klayout_exe_path s with
  | None => true
  | Some p => if isfile p then false else match which p with Some (String _ _) => false | _ => true end
  end.

(** ** Command lines *)
Variable show : Qc -> string.
(** the text of a number in an f-string: a whole number by its digits, a float by [show] *)
Inductive num := Int (text : string) | Float (q : Qc).
Definition num_text (n : num) : string := match n with Int t => t | Float q => show q end.

Record fastercap_options := FasterCapOptions { o_tolerance : Qc; o_d_coeff : Qc; o_mesh : Qc; o_ooc : option num;
  o_auto_precond : bool; o_galerkin : bool; o_jacobi : bool }.
(** fastercap_runner.py L38-72 *)
Definition fastercap_args (exe_path lst_file_path : string) (o : fastercap_options) : list string :=
  [exe_path; "-b"; "-i"; "-v"; "-a" ++ show (o_tolerance o); "-d" ++ show (o_d_coeff o); "-m" ++ show (o_mesh o)]%string
  ++ match o_ooc o with Some n => ["-f" ++ num_text n]%string | None => [] end
  ++ (if o_auto_precond o then ["-ap"] else [])
  ++ (if o_galerkin o then ["-g"] else [])
  ++ (if o_jacobi o then ["-pj"] else [])
  ++ [lst_file_path].

Record fastcap_options := FastCapOptions { f_order : num; f_depth : string; f_permittivity : Qc; f_tolerance : Qc }.
(** fastcap_runner.py L58-72; [lst_file] is the name of the list file without its directory *)
Definition fastcap_args (exe_path lst_file : string) (o : fastcap_options) : list string :=
  [exe_path; "-o" ++ num_text (f_order o)]%string
  ++ (if String.eqb (f_depth o) "auto" then [] else ["-d" ++ f_depth o]%string)
  ++ ["-p" ++ show (f_permittivity o); "-t" ++ show (f_tolerance o); "-l" ++ lst_file]%string.
(** fastcap_runner.py L45-48, the defaults, with which kpex_cli.py L646-648 calls it *)
Definition fastcap_defaults : fastcap_options := FastCapOptions (Int "2") "auto" 1 (Q2Qc (1 # 100)).

(** magic_runner.py L170-180: the join for the log fails if an element is no string *)
Definition magic_args (exe_path : string) (magicrc_path : option string) (script_path : string) : option (list string) :=
  match magicrc_path with
  | Some rc => Some [exe_path; "-dnull"; "-noconsole"; "-rcfile"; rc; script_path]
  | None => None
  end.

(** lvs_runner.py L49-70 *)
Definition lvs_args (exe_path lvs_script gds_path schematic_path lvsdb_path : string) (verbose : bool) : list string :=
  [exe_path; "-b"; "-r"; lvs_script;
   "-rd"; "input=" ++ abspath gds_path;
   "-rd"; "report=" ++ abspath lvsdb_path;
   "-rd"; "schematic=" ++ abspath schematic_path;
   "-rd"; "thr=22";
   "-rd"; "run_mode=deep";
   "-rd"; "spice_net_names=true";
   "-rd"; "spice_comments=false";
   "-rd"; "scale=false";
   "-rd"; "verbose=" ++ (if verbose then "true" else "false");
   "-rd"; "schematic_simplify=false";
   "-rd"; "net_only=false";
   "-rd"; "top_lvl_pins=true";
   "-rd"; "combine=false";
   "-rd"; "combine_devices=false";
   "-rd"; "purge=false";
   "-rd"; "purge_nets=false";
   "-rd"; "no_simplify=true"]%string.

(** netlistsvg_runner.py L45-56 *)
Definition netlistsvg_args (exe_path skin_path yosys_json_netlist_path output_svg_path : string) (layout_elk_path : option string) : list string :=
  [exe_path; "-o"; output_svg_path; "--skin"; skin_path]
  ++ match layout_elk_path with Some p => ["--layout"; p] | None => [] end
  ++ [yosys_json_netlist_path].
End Paths.

(** ** Which program runs *)
Definition has_slash (s : string) : bool := existsb (fun c => Ascii.eqb c "/"%char) (list_ascii_of_string s).
(** subprocess.Popen: a name without a slash is looked up on the path, others are seen from the working directory *)
Definition program (which : string -> option string) (cwd exe : string) : option string :=
  match exe with
  | String c _ => if Ascii.eqb c "/"%char then Some exe else if has_slash exe then Some (cwd ++ "/" ++ exe)%string else which exe
  | EmptyString => None
  end.
(** fastcap_runner.py L49-57, L80: FastCap is started after the change to the directory of the list file; os.chdir('') fails *)
Definition fastcap_program (which : string -> option string) (cwd work_dir exe : string) : option string :=
  match work_dir with
  | String c _ => program which (if Ascii.eqb c "/"%char then work_dir else (cwd ++ "/" ++ work_dir)%string) exe
  | EmptyString => None
  end.
(** fastercap_runner.py L79: FasterCap is started in the working directory of the run *)
Definition fastercap_program (which : string -> option string) (cwd work_dir exe : string) : option string := program which cwd exe.
