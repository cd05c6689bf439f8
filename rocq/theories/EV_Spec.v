(** What the environment and the command lines of the tools have to be: C90.  The command lines are read as the tools read them. *)
From Coq Require Import String Ascii ZArith.
From Verif Require Import PyBase PyLib PyStr EV_Model.
Local Open Scope string_scope.
Local Open Scope list_scope.

(** the value of a variable, or what the help says it is otherwise *)
Definition or_default (E : dict string string) (name default v : string) : Prop :=
  dget E name = Some v \/ (dget E name = None /\ v = default).

(** text after a prefix *)
Fixpoint after (p s : string) : option string :=
  match p, s with
  | EmptyString, _ => Some s
  | String a p, String b s => if Ascii.eqb a b then after p s else None
  | String _ _, EmptyString => None
  end.
(** a number as Python writes it starts with a digit or a minus sign *)
Definition numeric (s : string) : Prop := exists c t, s = String c t /\ (isdigit c = true \/ c = "-"%char).
(** no option *)
Definition plain_path (s : string) : Prop := after "-" s = None.

(** ** FasterCap *)
Inductive fastercap_flag := Console | Details | Verbose | Tolerance (t : string) | Coefficient (t : string) | Mesh (t : string)
  | OutOfCore (t : string) | AutoPreconditioner | Galerkin | Jacobi | Input (p : string) | Unknown.
Definition fastercap_reads (a : string) : fastercap_flag :=
  if String.eqb a "-b" then Console else if String.eqb a "-i" then Details else if String.eqb a "-v" then Verbose
  else if String.eqb a "-ap" then AutoPreconditioner else if String.eqb a "-g" then Galerkin else if String.eqb a "-pj" then Jacobi
  else match after "-a" a, after "-d" a, after "-m" a, after "-f" a, after "-" a with
       | Some t, _, _, _, _ => Tolerance t
       | _, Some t, _, _, _ => Coefficient t
       | _, _, Some t, _, _ => Mesh t
       | _, _, _, Some t, _ => OutOfCore t
       | _, _, _, _, Some _ => Unknown
       | _, _, _, _, None => Input a
       end.
Definition fastercap_wanted (show : Qc -> string) (lst : string) (o : fastercap_options) (f : fastercap_flag) : Prop :=
  match f with
  | Console | Details | Verbose => True
  | Tolerance t => t = show (o_tolerance o)
  | Coefficient t => t = show (o_d_coeff o)
  | Mesh t => t = show (o_mesh o)
  | OutOfCore t => exists n, o_ooc o = Some n /\ t = num_text show n
  | AutoPreconditioner => o_auto_precond o = true
  | Galerkin => o_galerkin o = true
  | Jacobi => o_jacobi o = true
  | Input p => p = lst
  | Unknown => False
  end.

(** ** FastCap *)
Inductive fastcap_flag := Order (t : string) | Depth (t : string) | Permittivity (t : string) | Accuracy (t : string) | ListFile (p : string) | Other (s : string).
Definition fastcap_reads (a : string) : fastcap_flag :=
  match after "-o" a, after "-d" a, after "-p" a, after "-t" a, after "-l" a with
  | Some t, _, _, _, _ => Order t
  | _, Some t, _, _, _ => Depth t
  | _, _, Some t, _, _ => Permittivity t
  | _, _, _, Some t, _ => Accuracy t
  | _, _, _, _, Some t => ListFile t
  | _, _, _, _, None => Other a
  end.
Definition fastcap_wanted (show : Qc -> string) (lst : string) (o : fastcap_options) (f : fastcap_flag) : Prop :=
  match f with
  | Order t => t = num_text show (f_order o)
  | Depth t => t = f_depth o /\ f_depth o <> "auto"
  | Permittivity t => t = show (f_permittivity o)
  | Accuracy t => t = show (f_tolerance o)
  | ListFile p => p = lst
  | Other _ => False
  end.

(** ** KLayout: -b, -r <script>, -rd <name>=<value> *)
Inductive klayout_flag := Batch | Script (s : string) | Define_ (name value : string) | Stray (s : string).
Fixpoint until_eq (s : string) : string * string :=
  match s with
  | EmptyString => ("", "")
  | String c t => if Ascii.eqb c "="%char then ("", t) else let (a, b) := until_eq t in (String c a, b)
  end.
Fixpoint klayout_reads (args : list string) : list klayout_flag :=
  match args with
  | [] => []
  | a :: r =>
      if String.eqb a "-b" then Batch :: klayout_reads r
      else match r with
           | x :: r' => if String.eqb a "-r" then Script x :: klayout_reads r'
                        else if String.eqb a "-rd" then let (n, v) := until_eq x in Define_ n v :: klayout_reads r'
                        else Stray a :: klayout_reads r
           | [] => [Stray a]
           end
  end.
(** the variables that are set to fixed values: hierarchy kept, nothing combined, purged or simplified *)
Definition lvs_switches : list (string * string) :=
  [("thr", "22"); ("run_mode", "deep"); ("spice_net_names", "true"); ("spice_comments", "false"); ("scale", "false");
   ("schematic_simplify", "false"); ("net_only", "false"); ("top_lvl_pins", "true"); ("combine", "false"); ("combine_devices", "false");
   ("purge", "false"); ("purge_nets", "false"); ("no_simplify", "true")].
Definition klayout_wanted (script input schematic report : string) (verbose : bool) (f : klayout_flag) : Prop :=
  match f with
  | Batch => True
  | Script s => s = script
  | Define_ n v => (n = "input" /\ v = input) \/ (n = "schematic" /\ v = schematic) \/ (n = "report" /\ v = report) \/
                   (n = "verbose" /\ v = if verbose then "true" else "false") \/ In (n, v) lvs_switches
  | Stray _ => False
  end.

(** ** Magic and netlistsvg: options with and without a value *)
Inductive word := Switch (s : string) | Value (name value : string) | Word (s : string).
Fixpoint words (switches values : list string) (args : list string) : list word :=
  match args with
  | [] => []
  | a :: r => if existsb (String.eqb a) switches then Switch a :: words switches values r
              else match r with
                   | x :: r' => if existsb (String.eqb a) values then Value a x :: words switches values r' else Word a :: words switches values r
                   | [] => [Word a]
                   end
  end.
Definition magic_reads : list string -> list word := words ["-dnull"; "-noconsole"] ["-rcfile"].
Definition netlistsvg_reads : list string -> list word := words [] ["-o"; "--skin"; "--layout"].
(** a path that is none of the options *)
Definition no_option (l : list string) (s : string) : Prop := ~ In s l.

(** ** The tools of a run *)
Inductive tool := FastCap | FasterCap | KLayout | Magic.
Record engines := Engines { with_fastcap : bool; with_fastercap : bool; with_magic : bool; with_25d : bool; from_gds : bool }.
(** the tools a run starts, if it has no LVS database from an earlier run *)
Definition starts (g : engines) (t : tool) : Prop :=
  match t with
  | FastCap => with_fastcap g = true
  | FasterCap => with_fastercap g = true
  | Magic => with_magic g = true /\ from_gds g = true
  | KLayout => from_gds g = true /\ (with_fastcap g = true \/ with_fastercap g = true \/ with_25d g = true)
  end.
Definition exe_of (s : settings) (t : tool) : option string :=
  match t with FastCap => fastcap_exe_path s | FasterCap => fastercap_exe_path s | KLayout => klayout_exe_path s | Magic => magic_exe_path s end.
(** there is such a file, or such a name on the path *)
Definition found (isfile : string -> bool) (which : string -> option string) (exe : option string) : Prop :=
  exists p, exe = Some p /\ (isfile p = true \/ exists q, which p = Some q /\ q <> "").
