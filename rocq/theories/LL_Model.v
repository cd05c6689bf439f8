(** Log levels and their options: klayout_pex/log/logger.py, klayout_pex/util/argparse_helpers.py (render_enum_help), the options of
    klayout_pex/kpex_cli.py and klayout_pex/netlist/netlist_cli.py that take the name of a case. *)
From Coq Require Import ZArith String Ascii.
From Verif Require Import PyBase PyLib.
Local Close Scope Qc_scope.
Local Open Scope string_scope.
Local Open Scope list_scope.
Local Open Scope Z_scope.

(** ** Enumerations *)
(** a value in a class body, as in logger.py L34-42 and rcx25/pex_mode.py L29-32 *)
Inductive value := VStr (s : string) | VInt (z : Z).
#[export] Instance value_eq_dec : EqDec value.
Proof. intros x y. decide equality; [apply string_dec|apply Z.eq_dec]. Defined.
(** An enumeration: whether it is a StrEnum, and its __members__, in the order of the class body, with aliases (argparse_helpers.py L44).
    A member is its value; of the names of one value the first is the name of the member, the others are aliases. *)
Record enum := Enum { is_str : bool; members : list (string * value) }.
(** logger.py L33-42 *)
Definition LogLevel : enum := Enum false
  [("ALL", VInt 0); ("DEBUG", VInt 10); ("SUBPROCESS", VInt 12); ("VERBOSE", VInt 15); ("INFO", VInt 20); ("WARNING", VInt 30); ("ERROR", VInt 40);
   ("CRITICAL", VInt 50); ("DEFAULT", VInt 12)].
(** kpex_cli.py L104-106 *)
Definition PDK : enum := Enum true [("IHP_SG13G2", VStr "ihp_sg13g2"); ("SKY130A", VStr "sky130A")].
(** rcx25/pex_mode.py L28-32 *)
Definition PEXMode : enum := Enum true [("CC", VStr "CC"); ("RC", VStr "RC"); ("R", VStr "R"); ("DEFAULT", VStr "CC")].
(** magic/magic_runner.py L40-44 *)
Definition MagicPEXMode : enum := Enum true [("CC", VStr "CC"); ("RC", VStr "RC"); ("R", VStr "R"); ("DEFAULT", VStr "CC")].
(** magic/magic_runner.py L47-51 *)
Definition MagicShortMode : enum := Enum true [("NONE", VStr "none"); ("RESISTOR", VStr "resistor"); ("VOLTAGE", VStr "voltage"); ("DEFAULT", VStr "none")].
(** magic/magic_runner.py L54-58 *)
Definition MagicMergeMode : enum :=
  Enum true [("NONE", VStr "none"); ("CONSERVATIVE", VStr "conservative"); ("AGGRESSIVE", VStr "aggressive"); ("DEFAULT", VStr "none")].

(** enum_cls[name], getattr(enum_cls, name): kpex_cli.py L456, argparse_helpers.py L48 *)
Definition by_name (e : enum) (name : string) : option value := dget (members e) name.
(** enum_cls(value), called by argparse for type=enum_cls (kpex_cli.py L163, netlist_cli.py L85); [None] is ValueError *)
Definition by_value (e : enum) (v : value) : option value := if existsb (fun m => eqb (snd m) v) (members e) then Some v else None.
(** member.name (argparse_helpers.py L54): the first name with this value *)
Fixpoint name_of (ms : list (string * value)) (v : value) : string :=
  match ms with [] => "" | (n, w) :: r => if eqb w v then n else name_of r v end.
(** str(member) and member.value of a StrEnum (argparse_helpers.py L39, L50) *)
Definition str_of (v : value) : string := match v with VStr s => s | VInt _ => "" end.
(** str.upper() (kpex_cli.py L456), for ASCII letters *)
Definition upper_ascii (c : ascii) : ascii := let n := nat_of_ascii c in if Nat.leb 97 n && Nat.leb n 122 then ascii_of_nat (n - 32) else c.
(** str.upper() of kpex_cli.py L456 *)
Fixpoint upper (s : string) : string := match s with "" => "" | String c t => String (upper_ascii c) (upper t) end.

(** ** The text of the help *)
(** canonic_string, argparse_helpers.py L35-40 *)
Definition canonic_string (e : enum) (lowercase : bool) (name : string) (v : value) : string :=
  if is_str e then if String.eqb (casefold name) "default" then "default" else if lowercase then casefold (str_of v) else str_of v
  else casefold name.
(** f"'{…}'", argparse_helpers.py L43 *)
Definition in_quotes (s : string) : string := ("'" ++ s ++ "'")%string.
(** ', '.join, argparse_helpers.py L46 *)
Fixpoint join (l : list string) : string :=
  match l with [] => "" | [s] => s | s :: r => (s ++ ", " ++ join r)%string end.
(** "\n", argparse_helpers.py L55 *)
Definition nl : string := String (ascii_of_nat 10) "".
(** render_enum_help, argparse_helpers.py L31-56 *)
Definition render_enum_help (topic : string) (e : enum) (print_default lowercase : bool) : string :=
  let cases := map (fun m => in_quotes (canonic_string e lowercase (fst m) (snd m))) (filter (fun m => negb (String.eqb (casefold (fst m)) "default")) (members e)) in
  let help := (topic ++ " ∈ {" ++ join cases ++ "}")%string in
  match by_name e "DEFAULT" with
  | Some d =>
      if print_default then
        let v := if is_str e then (if lowercase then casefold (str_of d) else str_of d) else casefold (name_of (members e) d) in
        (help ++ "." ++ nl ++ "Defaults to '" ++ v ++ "'")%string
      else help
  | None => help
  end.

(** ** The options *)
(** An option with type=enum_cls, choices=list(enum_cls) (kpex_cli.py L163, L262, L281, L284, L289, netlist_cli.py L85), as argparse of Python 3.12 reads it:
    [given] is the text on the command line, if there is one.  A default that is a text goes through enum_cls as well.  [None]: argparse prints an
    error and ends the program.  Each result of enum_cls is one of the choices. *)
Definition enum_option (e : enum) (default : option value) (given : option string) : option value :=
  match given, default with
  | Some s, _ => by_value e (VStr s)
  | None, Some (VStr d) => by_value e (VStr d)
  | None, Some d => Some d
  | None, None => None
  end.
(** --log_level of kpex_cli.py L155-156, L455-460: any text; [None]: an error is reported and the program ends *)
Definition kpex_log_level (given : option string) : option value :=
  by_name LogLevel (upper (match given with Some s => s | None => "subprocess" end)).
(** --log_level of netlist_cli.py L84-86 *)
Definition netlist_log_level (given : option string) : option value := enum_option LogLevel (by_name LogLevel "DEFAULT") given.
(** --pdk (required), kpex_cli.py L162-164 *)
Definition pdk_option : option string -> option value := enum_option PDK None.
(** --mode, kpex_cli.py L288-290 *)
Definition mode_option : option string -> option value := enum_option PEXMode (by_name PEXMode "DEFAULT").
(** --magic_mode, kpex_cli.py L261-263 *)
Definition magic_mode_option : option string -> option value := enum_option MagicPEXMode (by_name MagicPEXMode "DEFAULT").
(** --magic_short, kpex_cli.py L280-282 *)
Definition magic_short_option : option string -> option value := enum_option MagicShortMode (by_name MagicShortMode "DEFAULT").
(** --magic_merge, kpex_cli.py L283-285 *)
Definition magic_merge_option : option string -> option value := enum_option MagicMergeMode (by_name MagicMergeMode "DEFAULT").

(** ** Messages *)
(** the first argument of a call and the others (as texts) *)
Record msg := Msg { fmt : string; margs : list string }.
(** The calls that write a message, logger.py L145-184, with the time of the message *)
Inductive call :=
| Rule (title : string)
| Debug (m : msg) (time : string) | Subproc (m : msg) (time : string) | Info (m : msg) (time : string) | Warning (m : msg) (time : string) | Error (m : msg) (time : string).
(** a LogRecord of Python's logging *)
Record record := Record_ { level : Z; message : msg; asctime : string }.
(** fmt % args of Python, as far as %s and %%: [None] is TypeError (too few or too many arguments) or another conversion, which is not modelled *)
Fixpoint percent (f : string) (args : list string) : option string :=
  match f with
  | "" => match args with [] => Some "" | _ => None end
  | String "%" (String "s" t) => match args with a :: r => option_map (fun s => (a ++ s)%string) (percent t r) | [] => None end
  | String "%" (String "%" t) => option_map (String "%") (percent t args)
  | String "%" _ => None
  | String c t => option_map (String c) (percent t args)
  end.
(** LogRecord.getMessage of Python's logging (logger.py L52): the arguments are put in only if there are any; [None] is an exception *)
Definition get_message (r : record) : option string :=
  match margs (message r) with [] => Some (fmt (message r)) | args => percent (fmt (message r)) args end.
(** logging.getLevelName after logger.py L109-110, for the levels of the calls above *)
Definition level_name (l : Z) : string := if existsb (fun m => eqb (snd m) (VInt l)) (members LogLevel) then name_of (members LogLevel) (VInt l) else "".
(** LogLevelFilter, logger.py L60-70 *)
Record level_filter := Filter { levels : list string; invert : bool }.
(** LogLevelFilter.filter, logger.py L66-70 *)
Definition filter_passes (f : level_filter) (r : record) : bool :=
  if invert f then negb (existsb (String.eqb (level_name (level r))) (levels f)) else existsb (String.eqb (level_name (level r))) (levels f).
(** LogLevelFormatter.format, logger.py L51-57 *)
Definition format_level (r : record) (m : string) : string :=
  if level r =? 30 then ("[yellow]" ++ m)%string else if level r =? 40 then ("[red]" ++ m)%string else m.
(** A handler: its level (0 if it is not set), its filter, and where it writes: logger.py L112-136 (the console without and with the name of the
    level), kpex_cli.py L746-753 (a file, with or without the formatter of L775) *)
Inductive sink := Bare | Levelled | Plain (file : nat) | Formatted (file : nat).
Record handler := Handler { h_level : Z; h_filter : option level_filter; h_sink : sink }.
(** What stands on the console: a horizontal line, a text, or the name of a level and a text, in Rich's markup; without Rich's column for the time. *)
Inductive printed := PRule (title : string) | PBare (text : string) | PLine (level text : string).
(** The logger "__kpex__" of logger.py L74 (its level and handlers), what stands on the console and in the log files *)
Record world := World { logger_level : Z; handlers : list handler; console : list printed; files : dict nat (list string) }.

(** a line at the end of a log file, kpex_cli.py L748 *)
Definition write_line (file : nat) (line : string) (w : world) : world :=
  World (logger_level w) (handlers w) (console w) (dset (files w) file (match dget (files w) file with Some l => l | None => [] end ++ [line])).
(** console.rule and console.print, logger.py L73, L166 *)
Definition print (p : printed) (w : world) : world := World (logger_level w) (handlers w) (console w ++ [p]) (files w).
(** Handler.emit: RichHandler (logger.py L112-135) formats the message outside of any try, so that the exception leaves the call ([None]);
    FileHandler (kpex_cli.py L748) catches it and goes on *)
Definition emit (r : record) (s : sink) (w : world) : option world :=
  match s, get_message r with
  | Bare, Some m => Some (print (PBare m) w)
  | Levelled, Some m => Some (print (PLine (level_name (level r)) (format_level r m)) w)
  | Bare, None | Levelled, None => None
  | Plain f, Some m => Some (write_line f m w)
  | Formatted f, Some m => Some (write_line f ("[" ++ asctime r ++ "] [" ++ level_name (level r) ++ "]    " ++ m)%string w)
  | Plain _, None | Formatted _, None => Some w
  end.
(** Logger.getEffectiveLevel of Python's logging (logger.py L74): level 0 is NOTSET, which means the level of the parent, here the root logger with WARNING *)
Definition effective_level (w : world) : Z := if logger_level w =? 0 then 30 else logger_level w.
(** whether a handler takes the record: Logger.callHandlers and Handler.handle of Python's logging, for the handlers of logger.py L141-142, L92 *)
Definition takes (h : handler) (r : record) : bool :=
  (h_level h <=? level r) && match h_filter h with Some f => filter_passes f r | None => true end.
(** Logger.callHandlers of Python's logging, for logger.py L141-142, L92: one handler after the other; the root logger has none *)
Fixpoint call_handlers (hs : list handler) (r : record) (w : world) : option world :=
  match hs with
  | [] => Some w
  | h :: t => match (if takes h r then emit r (h_sink h) w else Some w) with Some w => call_handlers t r w | None => None end
  end.
(** Logger.log and isEnabledFor of Python's logging, for logger.py L148, L154, L172, L178, L184 *)
Definition log (r : record) (w : world) : option world :=
  if effective_level w <=? level r then call_handlers (handlers w) r w else Some w.
(** logger.py L145-184: rule prints whatever the level is *)
Definition run_call (c : call) (w : world) : option world :=
  match c with
  | Rule t => Some (print (PRule t) w)
  | Debug m t => log (Record_ 10 m t) w
  | Subproc m t => log (Record_ 12 m t) w
  | Info m t => log (Record_ 20 m t) w
  | Warning m t => log (Record_ 30 m t) w
  | Error m t => log (Record_ 40 m t) w
  end.
(** the calls of a part of the program, one after the other: kpex_cli.py L845-846, L779, L854-949; an exception ends it *)
Fixpoint play (cs : list call) (w : world) : option world :=
  match cs with
  | [] => Some w
  | c :: r => match run_call c w with Some w => play r w | None => None end
  end.
(** set_log_level, logger.py L77-78 *)
Definition set_log_level (l : Z) (w : world) : world := World l (handlers w) (console w) (files w).
(** register_additional_handler, logger.py L85-92 *)
Definition register (h : handler) (w : world) : world := World (logger_level w) (handlers w ++ [h]) (console w) (files w).
(** whether the handler writes this file (of kpex_cli.py L773-774) *)
Definition on_file (file : nat) (h : handler) : bool := match h_sink h with Plain f | Formatted f => Nat.eqb f file | _ => false end.
(** deregister_additional_handler, logger.py L95-102, for the handler of a file; each of the two files has one *)
Definition deregister (file : nat) (w : world) : world :=
  World (logger_level w) (filter (fun h => negb (on_file file h)) (handlers w)) (console w) (files w).
(** configure_logger, logger.py L106-142, at import; nothing is on the console yet *)
Definition configured : world :=
  World 12 [Handler 0 (Some (Filter ["SUBPROCESS"] false)) Bare; Handler 0 (Some (Filter ["SUBPROCESS"] true)) Levelled] [] [].
(** the handler of kpex_plain.log, file 0: kpex_cli.py L746-753 with L773, L776 *)
Definition plain_handler : handler := Handler 12 None (Plain 0).
(** the handler of kpex.log, file 1: kpex_cli.py L746-753 with L774-775, L777 *)
Definition formatted_handler : handler := Handler 12 None (Formatted 1).
(** A run of kpex, kpex_cli.py L840-852 with L745-788: the calls before the log files are open, those of validate_args, those after it.  If the
    arguments are not valid, the program ends (L784).  [None]: a call that writes a message raises an exception, which nothing catches.  That moving
    the files keeps their contents is in RL_Model. *)
Definition kpex_run (given : option string) (valid : bool) (opening validation rest : list call) : option world :=
  match play opening configured with
  | None => None
  | Some w =>
      match play validation (register formatted_handler (register plain_handler w)) with
      | None => None
      | Some w =>
          match kpex_log_level given with
          | Some (VInt l) =>
              if valid then
                let w := register plain_handler (deregister 0 w) in
                let w := register formatted_handler (deregister 1 w) in
                play rest (set_log_level l w)
              else Some w
          | _ => Some w
          end
      end
  end.
(** kpex_cli.py L462-467: the message for a pattern of --diel that cannot be read, [e] is the text of the ValueError *)
Definition diel_error (e time : string) : call := Error (Msg "Failed to parse --diel arg" [e]) time.
