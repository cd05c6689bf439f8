(** Levels of messages, what stands on the console and in the logs, and how a help text is read: C102, C103. *)
From Coq Require Import String Ascii List Arith.
From Verif Require Import PyBase PyLib LL_Model.
Import ListNotations.
Local Close Scope Qc_scope.
Local Open Scope string_scope.
Local Open Scope list_scope.

(** ** Levels *)
(** from the least to the most important *)
Definition level_words : list string := ["all"; "debug"; "subprocess"; "verbose"; "info"; "warning"; "error"; "critical"].
Fixpoint position (w : string) (l : list string) : nat := match l with [] => 0 | x :: r => if String.eqb x w then 0 else S (position w r) end.
(** the level [w] is at least as important as [v] *)
Definition at_least (v w : string) : bool := Nat.leb (position v level_words) (position w level_words).
(** the level that --log_level asks for; letters may be large or small *)
Inductive chooses : option string -> string -> Prop :=
  | NotGiven : chooses None "subprocess"
  | Default s : casefold s = "default" -> chooses (Some s) "subprocess"
  | Word s : In (casefold s) level_words -> chooses (Some s) (casefold s).

(** ** Messages *)
(** the name of the level of a message; a horizontal line has none *)
Definition word_of (c : call) : option string :=
  match c with
  | Rule _ => None
  | Debug _ _ => Some "debug" | Subproc _ _ => Some "subprocess" | Info _ _ => Some "info" | Warning _ _ => Some "warning" | Error _ _ => Some "error"
  end.
(** messages that need the level [v], and horizontal lines *)
Definition shown (v : string) (c : call) : bool := match word_of c with Some w => at_least v w | None => true end.
(** a text without arguments, as in all calls of the program but one *)
Definition msg_of (c : call) : option msg :=
  match c with Rule _ => None | Debug m _ | Subproc m _ | Info m _ | Warning m _ | Error m _ => Some m end.
Definition plain (c : call) : Prop := forall m, msg_of c = Some m -> margs m = [].
(** how a call appears on the console *)
Inductive appears : call -> printed -> Prop :=
  | ALine t : appears (Rule t) (PRule t)
  | ADebug s t : appears (Debug (Msg s []) t) (PLine "DEBUG" s)
  | ASubproc s t : appears (Subproc (Msg s []) t) (PBare s)
  | AInfo s t : appears (Info (Msg s []) t) (PLine "INFO" s)
  | AWarning s t : appears (Warning (Msg s []) t) (PLine "WARNING" ("[yellow]" ++ s))
  | AError s t : appears (Error (Msg s []) t) (PLine "ERROR" ("[red]" ++ s)).
(** messages that belong in the log files: those of the level [v], but no debugging and no horizontal lines *)
Definition logged (v : string) (c : call) : bool := match word_of c with Some w => at_least v w && at_least "subprocess" w | None => false end.
(** how a message appears in kpex_plain.log and in kpex.log *)
Inductive plain_line : call -> string -> Prop :=
  | PlainLine c s : msg_of c = Some (Msg s []) -> plain_line c s.
Inductive dated_line : call -> string -> Prop :=
  | LSubproc s t : dated_line (Subproc (Msg s []) t) ("[" ++ t ++ "] [SUBPROCESS]    " ++ s)
  | LInfo s t : dated_line (Info (Msg s []) t) ("[" ++ t ++ "] [INFO]    " ++ s)
  | LWarning s t : dated_line (Warning (Msg s []) t) ("[" ++ t ++ "] [WARNING]    " ++ s)
  | LError s t : dated_line (Error (Msg s []) t) ("[" ++ t ++ "] [ERROR]    " ++ s).
(** the lines of a log file *)
Definition lines (w : world) (file : nat) : list string := match dget (files w) file with Some l => l | None => [] end.

(** ** Reading a help text *)
(** the words in single quotes, and those up to the first closing brace and after it *)
Fixpoint quoted (inside : option string) (s : string) : list string :=
  match s, inside with
  | "", _ => []
  | String "'" t, None => quoted (Some "") t
  | String "'" t, Some w => w :: quoted None t
  | String _ t, None => quoted None t
  | String c t, Some w => quoted (Some (w ++ String c "")%string) t
  end.
Fixpoint before_brace (s : string) : string := match s with "" => "" | String "}" _ => "" | String c t => String c (before_brace t) end.
Fixpoint after_brace (s : string) : string := match s with "" => "" | String "}" t => t | String _ t => after_brace t end.
Definition offered (help : string) : list string := quoted None (before_brace help).
Definition named_default (help : string) : list string := quoted None (after_brace help).
(** a text without quotes and closing braces *)
Fixpoint clean (s : string) : Prop := match s with "" => True | String c t => c <> "'"%char /\ c <> "}"%char /\ clean t end.
(** ** Enumerations of texts *)
(** each value is a clean text, and so is each name; a case DEFAULT stands for one of the others *)
Definition clean_value (v : value) : Prop := match v with VStr s => clean s | VInt _ => False end.
Definition is_default (name : string) : bool := String.eqb (casefold name) "default".
Definition text_enum (e : enum) : Prop :=
  is_str e = true /\ NoDup (map fst (members e)) /\ Forall (fun m => clean_value (snd m)) (members e) /\
  forall n v, In (n, v) (members e) -> is_default n = true -> n = "DEFAULT" /\ exists n', In (n', v) (members e) /\ is_default n' = false.
