(** Model of klayout_pex/kpex_cli.py: validate_args (L312-473), create_lvsdb (L795-838), the start of main (L840-870),
    and of klayout_pex/klayout/lvs_runner.py run_klayout_lvs (L39-99), as a machine that works on a file system
    while the user edits files, the clock advances, and the process may be killed between any two steps.
    Simplifications: paths are absolute lists of components (no symlinks, no relative paths, no directories as such:
    os.makedirs has no effect of its own); a file is its content and its modification time; writing a file first
    leaves a truncated file and then completes it; one run at a time; log files and the engines that follow are not here. *)
From Coq Require Import String Ascii ZArith.
From Verif Require Import PyBase PyLib PyStr UT_Model.
Local Open Scope string_scope.
Local Open Scope list_scope.

Notation path := (list string) (only parsing).

(** ** Files *)
(** a layout as far as kpex_cli looks at it: cell names, top cell names, and everything else as one value;
    [CellOf l c] is what [Cell.write] exports (L400): the cell as only top cell.  The cells below it are not listed. *)
Inductive layout := Drawn (cells tops : list string) (shapes : Z) | CellOf (l : layout) (cell : string).
Definition cells_of (l : layout) : list string := match l with Drawn cs _ _ => cs | CellOf _ c => [c] end.
Definition tops_of (l : layout) : list string := match l with Drawn _ ts _ => ts | CellOf _ c => [c] end.
(** file contents: a GDS layout, a text (SPICE schematic), an LVS database (given by what the LVS script of the PDK was
    run on), or a file whose writing was cut off *)
Inductive content := Gds (l : layout) | Text (s : string) | Lvs (pdk : string) (l : layout) (schematic : content) | Truncated.
Record file := File { f_data : content; f_time : Z }.
Definition fs := list string -> option file.
Definition put (F : fs) (p : path) (f : option file) : fs := fun q => if eqb q p then f else F q.
(** os.path.isfile; the empty path is no file *)
Definition isfile (F : fs) (p : path) : bool := match p with [] => false | _ => match F p with Some _ => true | None => false end end.

(** ** Arguments, L137-309: those that validate_args and create_lvsdb look at *)
Record args := Args { a_pdk : string; a_out : list string; a_gds : option (list string); a_schematic : option (list string);
  a_lvsdb : option (list string); a_cell : option string; a_cache : bool; a_cache_dir : option (list string);
  a_magic : bool; a_fastcap : bool; a_fastercap : bool; a_25d : bool; a_log_level : string; a_diel : string }.
(** what the installation offers: KLayout executable (L323-327), technology file (L329-331), LVS script (L333-335) *)
Record env := Env { e_klayout : bool; e_tech : bool; e_script : bool }.
(** truth value of an optional path and an optional string *)
Definition given (p : option (list string)) : bool := match p with Some (_ :: _) => true | _ => false end.
Definition named (c : option string) : bool := match c with Some (String _ _) => true | _ => false end.

(** input_file_stem, L319-321 *)
Definition stem (p : path) : string := hd "" (split_on dot (last p "")).
(** L391, L430, L432 *)
Definition run_dir_id (input : path) (cell : string) : string := stem input ++ "__" ++ cell.
(** L392, L436 *)
Definition run_dir (a : args) (input : path) (cell : string) : path := a_out a ++ [run_dir_id input cell].
(** L394-395 *)
Definition export_path (a : args) (gds : path) (cell : string) : path := run_dir a gds cell ++ [cell ++ "_exported.gds.gz"]%string.
(** L446-447 *)
Definition dummy_path (a : args) (gds : path) (cell : string) : path := run_dir a gds cell ++ [cell ++ "_dummy_schematic.spice"]%string.
(** L448-453 *)
Definition dummy_text (cell : string) : string :=
  ".subckt " ++ cell ++ " VDD VSS" ++ String nl (".ends" ++ String nl (".end" ++ String nl "")).
(** L803 *)
Definition lvsdb_path (a : args) (gds : path) (cell : string) : path := run_dir a gds cell ++ [cell ++ ".lvsdb.gz"]%string.
(** L469-470 *)
Definition cache_dir (a : args) : path := match a_cache_dir a with Some d => d | None => a_out a ++ [".kpex_cache"] end.
(** L804-806: the root of the absolute GDS path is cut off *)
Definition cache_path (a : args) (gds : path) (cell : string) : path :=
  cache_dir a ++ [a_pdk a] ++ gds ++ [cell ++ ".lvsdb.gz"]%string.

(** ** validate_args *)
(** what a run is going to do: input from GDS?, chosen cell, the layout that was read, the layout file handed to LVS, whether
    the cell is exported, the schematic handed to LVS and whether it is the dummy, and found_errors *)
Record plan := Plan { pl_gds : option (list string); pl_input : list string; pl_cell : string; pl_layout : layout;
  pl_export : bool; pl_schematic : list string; pl_dummy : bool; pl_errors : bool }.
(** the file that LVS reads: effective_gds_path, L394, L412-413 *)
Definition pl_lvs_input (a : args) (pl : plan) : path :=
  if pl_export pl then export_path a (pl_input pl) (pl_cell pl) else pl_input pl.
(** [VRejected]: ArgumentValidationError with nothing written; [VRaised]: any other exception *)
Inductive verdict := VPlan (pl : plan) | VRejected | VRaised.

(** L339-360, the first matching case *)
Definition engine_errors (a : args) : bool :=
  match a_magic a, a_fastcap a, a_fastercap a, a_25d a, a_gds a, a_lvsdb a with
  | true, _, _, _, None, _ => true
  | false, false, false, false, _, _ => true
  | _, _, _, _, None, None => true
  | _, _, _, _, _, _ => false
  end.
(** L455-460: LogLevel[name.upper()], logger.py L33-42 *)
Definition log_level_ok (a : args) : bool :=
  mem (casefold (a_log_level a)) ["all"; "debug"; "subprocess"; "verbose"; "info"; "warning"; "error"; "critical"; "default"].
(** L462-467 *)
Definition diel_ok (a : args) : bool := match parse_choice (a_diel a) with Some _ => true | None => false end.

(** L438-453: schematic path, whether it is the dummy, error *)
Definition schematic_of (a : args) (F : fs) (gds : path) (cell : string) : path * bool * bool :=
  match a_schematic a with
  | Some (x :: r) => (x :: r, false, negb (isfile F (x :: r)))
  | _ => (dummy_path a gds cell, true, false)
  end.

Definition validate (e : env) (a : args) (F : fs) : verdict :=
  (** L323-335, L339-360, L455-467 *)
  let errors0 := negb (e_klayout e) || negb (e_tech e) || negb (e_script e) || engine_errors a in
  let errors1 := negb (log_level_ok a) || negb (diel_ok a) in
  let finish (gds : option (list string)) (input : list string) cell l export (cell_error : bool) :=
    match gds with
    | Some g => let '(sp, dummy, se) := schematic_of a F g cell in
                VPlan (Plan gds input cell l export sp dummy (errors0 || cell_error || se || errors1))
    | None => VPlan (Plan gds input cell l export [] false (errors0 || cell_error || errors1))
    end in
  if given (a_gds a) then
    (** L363-413 *)
    match a_gds a with
    | Some g =>
        if negb (isfile F g) then VRejected
        else match F g with
             | Some (File (Gds l) _) =>
                 match a_cell a with
                 | Some (String x r) =>
                     let c := String x r in
                     let found := mem c (cells_of l) in
                     if eqb (tops_of l) [c] then finish (Some g) g c l false (negb found)
                     else if found then finish (Some g) g c l true false
                     else VRaised   (** L400: found_cell is None *)
                 | _ =>
                     match tops_of l with
                     | [t] => finish (Some g) g t l false false
                     | _ => finish (Some g) g "TOP" l false true
                     end
                 end
             | _ => VRaised   (** L371: Layout.read fails *)
             end
    | None => VRejected
    end
  else match a_lvsdb a with
       | Some d =>
           (** L414-424 *)
           if negb (isfile F d) then VRejected
           else match F d with
                | Some (File (Lvs _ l _) _) => finish None d (hd "" (tops_of l)) l false false
                | _ => VRaised
                end
       | None =>
           (** no input at all: with [--gds ''] no error was found, and L761 fails for want of output_dir_path *)
           if errors0 || errors1 then VRejected else VRaised
       end.

(** ** One run *)
Inductive outcome :=
| Used (db : content)   (** create_lvsdb returned this database *)
| NoLvs                 (** only Magic was asked for, L864-866 *)
| Rejected              (** sys.exit(1) after ArgumentValidationError, L778-784 *)
| Raised.               (** any other exception *)
Inductive phase :=
| PValidate
| PExport (pl : plan) | PExported (pl : plan)        (** L400, about to open / to complete the exported layout *)
| PDummy (pl : plan) | PDummied (pl : plan)          (** L448-453 *)
| PDecide (pl : plan)                                (** L472-473, L864, L798-800 *)
| PCheck (pl : plan)                                 (** L810-820 *)
| PLvs (pl : plan)                                   (** L822-830: LVS starts and reads its inputs *)
| PLvsRun (pl : plan) (result : option content)      (** LVS has read its inputs *)
| PLvsWrite (pl : plan) (result : content)           (** LVS completes the report *)
| PCopy (pl : plan)                                  (** L831-835 *)
| PCopied (pl : plan) (data : content)
| PRead (pl : plan).                                 (** L837, L800 *)

(** the database file that is read at the end: L837 (output directory) or L800 (given by the user) *)
Definition read_path (a : args) (pl : plan) : path :=
  match pl_gds pl with Some g => lvsdb_path a g (pl_cell pl) | None => pl_input pl end.
Definition stamp (c : content) (now : Z) : option file := Some (File c now).

(** one step; [wrote]: whether the LVS process gets to write its report.  Its exit code is only logged (lvs_runner.py L95-99). *)
Definition go (e : env) (a : args) (ph : phase) (wrote : bool) (F : fs) (now : Z) : fs * (phase + outcome) :=
  match ph with
  | PValidate =>
      match validate e a F with
      | VPlan pl => (F, inl (if pl_export pl then PExport pl else PDummy pl))
      | VRejected => (F, inr Rejected)
      | VRaised => (F, inr Raised)
      end
  | PExport pl => (put F (export_path a (pl_input pl) (pl_cell pl)) (stamp Truncated now), inl (PExported pl))
  | PExported pl => (put F (export_path a (pl_input pl) (pl_cell pl)) (stamp (Gds (CellOf (pl_layout pl) (pl_cell pl))) now), inl (PDummy pl))
  | PDummy pl => if pl_dummy pl then (put F (pl_schematic pl) (stamp Truncated now), inl (PDummied pl)) else (F, inl (PDecide pl))
  | PDummied pl => (put F (pl_schematic pl) (stamp (Text (dummy_text (pl_cell pl))) now), inl (PDecide pl))
  | PDecide pl =>
      if pl_errors pl then (F, inr Rejected)
      else if negb (a_fastcap a || a_fastercap a || a_25d a) then (F, inr NoLvs)
      else match pl_gds pl with
           | None => (F, inl (PRead pl))
           | Some g => (F, inl (if a_cache a then PCheck pl else PLvs pl))
           end
  | PCheck pl =>
      match F (cache_path a (pl_input pl) (pl_cell pl)) with
      | None => (F, inl (PLvs pl))                                     (** cache miss: does not exist *)
      | Some cached =>
          match F (pl_input pl) with
          | None => (F, inr Raised)                                    (** os.path.getmtime fails *)
          | Some gds => if (f_time cached <=? f_time gds)%Z then (F, inl (PLvs pl))   (** cache miss: older than the input *)
                        else (F, inl (PRead pl))                       (** cache hit *)
          end
      end
  | PLvs pl =>
      (F, inl (PLvsRun pl (match F (pl_lvs_input a pl), F (pl_schematic pl) with
                           | Some (File (Gds l) _), Some s => Some (Lvs (a_pdk a) l (f_data s))
                           | _, _ => None
                           end)))
  | PLvsRun pl result =>
      match result, wrote with
      | Some db, true => (put F (lvsdb_path a (pl_input pl) (pl_cell pl)) (stamp Truncated now), inl (PLvsWrite pl db))
      | _, _ => (F, inl (if a_cache a then PCopy pl else PRead pl))
      end
  | PLvsWrite pl db => (put F (lvsdb_path a (pl_input pl) (pl_cell pl)) (stamp db now), inl (if a_cache a then PCopy pl else PRead pl))
  | PCopy pl =>
      match F (lvsdb_path a (pl_input pl) (pl_cell pl)) with
      | None => (F, inr Raised)                                        (** shutil.copy fails *)
      | Some f => (put F (cache_path a (pl_input pl) (pl_cell pl)) (stamp Truncated now), inl (PCopied pl (f_data f)))
      end
  | PCopied pl data => (put F (cache_path a (pl_input pl) (pl_cell pl)) (stamp data now), inl (PRead pl))
  | PRead pl =>
      match F (read_path a pl) with
      | Some (File (Lvs p l s) _) => (F, inr (Used (Lvs p l s)))
      | _ => (F, inr Raised)
      end
  end.

(** ** Histories *)
Inductive event :=
| Tick (seconds : Z)                                            (** the clock advances; negative values do nothing *)
| Edit (p : list string) (c : option content) (kept : option Z) (** the user writes or removes a file; [kept]: with an older modification time *)
| Start (a : args)                                              (** kpex is called; nothing happens while another run is active *)
| Go (wrote : bool)                                             (** the active run makes one step *)
| Kill.                                                         (** the active run dies *)
Record world := World { w_fs : fs; w_now : Z; w_run : option (args * phase); w_done : list (args * outcome) }.
Definition nothing : fs := fun _ => None.
Definition genesis : world := World nothing 0 None [].
Definition step (e : env) (w : world) (ev : event) : world :=
  match ev with
  | Tick d => World (w_fs w) (w_now w + Z.max 0 d) (w_run w) (w_done w)
  | Edit p c kept =>
      World (put (w_fs w) p (match c with Some c => stamp c (match kept with Some t => Z.min t (w_now w) | None => w_now w end) | None => None end))
            (w_now w) (w_run w) (w_done w)
  | Start a => match w_run w with None => World (w_fs w) (w_now w) (Some (a, PValidate)) (w_done w) | Some _ => w end
  | Go wrote =>
      match w_run w with
      | None => w
      | Some (a, ph) =>
          match go e a ph wrote (w_fs w) (w_now w) with
          | (F, inl ph') => World F (w_now w) (Some (a, ph')) (w_done w)
          | (F, inr o) => World F (w_now w) None ((a, o) :: w_done w)
          end
      end
  | Kill => World (w_fs w) (w_now w) None (w_done w)
  end.
Definition run (e : env) (w : world) (evs : list event) : world := fold_left (step e) evs w.
