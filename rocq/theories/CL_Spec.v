(** What C43, C77 and C78 say, in terms of files, arguments and outcomes. *)
From Coq Require Import String Ascii ZArith.
From Verif Require Import PyBase PyLib CL_Model.
Local Open Scope string_scope.
Local Open Scope list_scope.

(** the worlds passed through, from [w] to the end *)
Fixpoint during (e : env) (w : world) (evs : list event) : list world :=
  w :: match evs with [] => [] | ev :: r => during e (step e w ev) r end.
Definition data_at (w : world) (p : list string) : option content := option_map f_data (w_fs w p).

(** [c] is the cell that the arguments ask for in the layout [l]: the named one, or else the only top cell *)
Definition chosen (a : args) (l : layout) (c : string) : Prop :=
  match a_cell a with
  | Some (String x r) => c = String x r /\ In c (cells_of l)
  | _ => tops_of l = [c]
  end.
(** the cell [c] of [l] as a layout of its own: [l] itself when [c] is its only top cell *)
Definition only_cell (l : layout) (c : string) : layout := if eqb (tops_of l) [c] then l else CellOf l c.

(** the input layout and the user's schematic *)
Definition reads (a : args) (p : list string) : Prop := (a_gds a = Some p \/ a_schematic a = Some p) /\ p <> [].
(** the files that calling kpex with [a] may write (log files and engine results aside) *)
Definition writes (a : args) (p : list string) : Prop :=
  exists g c, a_gds a = Some g /\ g <> [] /\ In p [export_path a g c; dummy_path a g c; lvsdb_path a g c; cache_path a g c].
(** a piece of history that belongs to a single run, in which every LVS call delivers its report *)
Definition one_run (ev : event) : Prop := match ev with Start _ | Kill => False | Go wrote => wrote = true | _ => True end.

(** ** histories of many runs *)
(** a collection of calls that do not get in each other's way: one output and one cache directory, no input among the files
    that are written, no cached file among the files of a run directory, and no run directory shared by two inputs *)
Record apart (A : args -> Prop) : Prop := {
  same_dirs : forall a b, A a -> A b -> a_out a = a_out b /\ cache_dir a = cache_dir b;
  inputs_apart : forall a b p q, A a -> A b -> reads a p -> writes b q -> p <> q;
  cache_apart : forall a b g h c d, A a -> A b -> a_gds a = Some g -> a_gds b = Some h ->
    ~ In (cache_path a g c) [export_path b h d; dummy_path b h d; lvsdb_path b h d];
  run_dirs_apart : forall a b g h c, A a -> A b -> a_gds a = Some g -> a_gds b = Some h -> g <> [] -> h <> [] ->
    run_dir_id g c = run_dir_id h c -> g = h /\ a_pdk a = a_pdk b }.
(** one event of an orderly history: calls from [A]; the user edits no file that kpex writes, and no input of the run that is
    under way; edited files get the current time; LVS delivers its report.  The clock may stand still, and a run may be killed
    at any point. *)
Definition orderly (A : args -> Prop) (w : world) (ev : event) : Prop :=
  match ev with
  | Start a => A a
  | Go wrote => wrote = true
  | Edit p _ kept => kept = None /\ (forall a, A a -> ~ writes a p) /\ (forall a ph, w_run w = Some (a, ph) -> ~ reads a p)
  | _ => True
  end.
Fixpoint orderly_all (A : args -> Prop) (e : env) (w : world) (evs : list event) : Prop :=
  match evs with [] => True | ev :: r => orderly A w ev /\ orderly_all A e (step e w ev) r end.
(** the database that a run with [a] should use when the input layout is [l] *)
Definition right_database (a : args) (l : layout) (db : content) : Prop :=
  exists c s, chosen a l c /\ db = Lvs (a_pdk a) (only_cell l c) s.

(** ** which calls are accepted *)
Definition log_levels : list string := ["all"; "debug"; "subprocess"; "verbose"; "info"; "warning"; "error"; "critical"; "default"].
Definition acceptable_gds (e : env) (a : args) (F : fs) (g : list string) (l : layout) (c : string) : Prop :=
  e_klayout e = true /\ e_tech e = true /\ e_script e = true /\
  In (casefold (a_log_level a)) log_levels /\ (exists ch, UT_Model.parse_choice (a_diel a) = Some ch) /\
  (a_magic a = true \/ a_fastcap a = true \/ a_fastercap a = true \/ a_25d a = true) /\
  a_gds a = Some g /\ g <> [] /\ option_map f_data (F g) = Some (Gds l) /\ chosen a l c /\
  (forall sp, a_schematic a = Some sp -> sp <> [] -> F sp <> None).
(** only the Magic engine is asked for *)
Definition only_magic (a : args) : Prop := a_fastcap a = false /\ a_fastercap a = false /\ a_25d a = false.

(** ** names of run directories: no double underscore inside or across the end *)
Fixpoint plain (s : string) : bool :=
  match s with
  | EmptyString => true
  | String x r => (if eqb x "_"%char then match r with EmptyString => false | String y _ => negb (eqb y "_"%char) end else true) && plain r
  end.
