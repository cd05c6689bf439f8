(** Model of klayout_pex/util/multiple_choice.py, klayout_pex/util/argparse_helpers.py (true_or_false),
    klayout_pex/rcx25/pex_mode.py and klayout_pex/klayout/repair_rdb.py.
    Strings are byte strings; lower() is modelled for ASCII letters only. *)
From Coq Require Import String Ascii.
From Verif Require Import PyBase PyLib PyStr.
Local Open Scope string_scope.
Local Open Scope list_scope.

(** ** MultipleChoicePattern, multiple_choice.py L28-69 *)
Definition comma : ascii := chr 44.
(** L46-47 *)
Definition components (pattern : string) : list string := map (fun c => strip (casefold c)) (split_on comma pattern).
(** [c[1:] for c in components if c.startswith(sign)], L50-51 *)
Definition signed (sign : ascii) (cs : list string) : list string :=
  flat_map (fun c => match c with String a r => if eqb a sign then [r] else [] | EmptyString => [] end) cs.
Record choice := Choice { has_all : bool; has_none : bool; ch_included : list string; ch_excluded : list string }.
Definition mem (x : string) (l : list string) : bool := existsb (eqb x) l.
(** __init__, L44-57; [None] is a ValueError *)
Definition parse_choice (pattern : string) : option choice :=
  let cs := components pattern in
  let c := Choice (mem "all" cs) (mem "none" cs) (signed (chr 43) cs) (signed (chr 45) cs) in
  if has_none c && has_all c then None
  else if has_none c && Nat.leb 1 (List.length (ch_excluded c)) then None
  else if has_all c && Nat.leb 1 (List.length (ch_included c)) then None
  else Some c.
(** filter, L59-62 *)
Definition choice_filter (p : choice) (choices : list string) : list string :=
  if has_all p then filter (fun c => negb (mem c (ch_excluded p))) choices
  else filter (fun c => mem c (ch_included p)) choices.
(** is_included, L64-69 *)
Definition is_included (p : choice) (c : string) : bool :=
  if has_none p then mem c (ch_included p)
  else if has_all p then negb (mem c (ch_excluded p))
  else false.

(** ** true_or_false, argparse_helpers.py L59-69 *)
(** an argument: a bool, or anything else given by its str(); [None] is an ArgumentTypeError.
    The cases 1 and 0 compare an int with a str, which is never equal. *)
Inductive argval := ABool (b : bool) | AStr (s : string).
Definition true_or_false (a : argval) : option bool :=
  match a with
  | ABool b => Some b
  | AStr s => if mem (casefold s) ["yes"; "true"; "t"; "y"] then Some true
              else if mem (casefold s) ["no"; "false"; "f"; "n"] then Some false
              else None
  end.

(** ** PEXMode, pex_mode.py L28-50: DEFAULT is an alias of CC *)
Inductive pexmode := CC | RC | R.
Definition DEFAULT : pexmode := CC.
(** PEXMode(value), as used by argparse (kpex_cli.py L288-290); [None] is a ValueError *)
Definition parse_mode (s : string) : option pexmode :=
  if eqb s "CC" then Some CC else if eqb s "RC" then Some RC else if eqb s "R" then Some R else None.
Definition need_capacitance (m : pexmode) : bool := match m with CC | RC => true | R => false end.
Definition need_resistance (m : pexmode) : bool := match m with R | RC => true | CC => false end.

(** ** parse_category_path, repair_rdb.py L48-80 *)
Definition dot : ascii := chr 46.
Definition backslash : ascii := chr 92.
Definition apos : ascii := chr 39.
Definition snoc (s : string) (c : ascii) : string := (s ++ String c EmptyString)%string.
Fixpoint parse_path (escaped bs : bool) (word : string) (s : string) : list string :=
  match s with
  | EmptyString => match word with EmptyString => [] | _ => [word] end
  | String c r =>
      if eqb c dot then
        if bs then parse_path escaped false (snoc word c) r
        else if escaped then parse_path escaped bs (snoc word c) r
        else word :: parse_path escaped bs EmptyString r
      else if eqb c backslash then
        if bs then parse_path escaped false (snoc word c) r else parse_path escaped true word r
      else if eqb c apos then
        if bs then parse_path escaped false (snoc word c) r else parse_path (negb escaped) bs word r
      else parse_path escaped bs (snoc word c) r
  end.
Definition parse_category_path (s : string) : list string := parse_path false false EmptyString s.

(** ** repair_rdb_xml, repair_rdb.py L82-108 *)
(** A <category> element: the text of its <name> and the contents of its <categories> child, [None] if there is no such
    child.  Every category has one name.  Other children and the item list are left out (they are not changed). *)
Inductive cat := Cat (name : string) (subs : option (list cat)).
Definition cat_name (c : cat) : string := match c with Cat n _ => n end.
(** the inner loop L93-106 below the <categories> element with contents [cs]; [None] is the AttributeError of a category
    without <categories>.  The lookup by an XPath with the name in apostrophes (L96) is modelled as the first category with
    this name, which is right for names without apostrophes only. *)
Fixpoint add_path (p : list string) : list cat -> option (list cat) :=
  match p with
  | [] => fun cs => Some cs
  | c :: r =>
      fix go (cs : list cat) : option (list cat) :=
        match cs with
        | [] => match add_path r [] with Some subs => Some [Cat c (Some subs)] | None => None end
        | Cat n subs :: t =>
            if eqb n c then
              match r with
              | [] => Some (Cat n subs :: t)
              | _ => match subs with
                     | None => None
                     | Some s => match add_path r s with Some s' => Some (Cat n (Some s') :: t) | None => None end
                     end
              end
            else match go t with Some t' => Some (Cat n subs :: t') | None => None end
        end
  end.
(** lexicographic order of lists of strings, L90 *)
Fixpoint path_lt (a b : list string) : bool :=
  match a, b with
  | [], [] => false
  | [], _ => true
  | _, [] => false
  | x :: r, y :: t => if eqb x y then path_lt r t else strlt x y
  end.
(** L86-106: [categories] lists the texts of the item categories in the iteration order of the set *)
Definition repair (categories : list string) (root : list cat) : option (list cat) :=
  fold_left (fun cs p => match cs with Some cs => add_path p cs | None => None end)
    (py_sorted path_lt (map parse_category_path categories)) (Some root).
