(** Specification for C80-C82: how Tcl reads a script, what the commands of Magic do, what a log is. *)
From Coq Require Import String Ascii ZArith.
From Verif Require Import PyBase PyLib PyStr MS_Model.
Local Open Scope string_scope.
Local Open Scope list_scope.

(** ** Tcl *)
(** The part of Tcl's syntax without quoting, command substitution and array variables:
    a script is a list of commands ended by newlines or semicolons, a command a list of words separated by blanks, and $name in a word
    stands for the value of a variable.  A line that starts with # is a comment. *)
Definition is_blank (c : ascii) : bool := Ascii.eqb c " " || (Nat.leb 9 (nat_of_ascii c) && Nat.leb (nat_of_ascii c) 13 && negb (Ascii.eqb c nl)).
Definition is_end (c : ascii) : bool := Ascii.eqb c nl || Ascii.eqb c ";".
Definition is_quoting (c : ascii) : bool := existsb (Ascii.eqb c) ["""";  "{"; "}"; "["; "]"; "\"; "("]%char.
Definition is_name (c : ascii) : bool :=
  let n := nat_of_ascii c in
  (Nat.leb 48 n && Nat.leb n 57) || (Nat.leb 65 n && Nat.leb n 90) || (Nat.leb 97 n && Nat.leb n 122) || Ascii.eqb c "_" || Ascii.eqb c ":".

Inductive place :=
| AtStart                               (* before the first word of a command *)
| InComment
| AtGap                                 (* after a word *)
| InWord (w : string)
| InVar (w v : string).                 (* after w and $v *)
Inductive reader :=
| Reading (done : list (list string)) (words : list string) (p : place)
| Failed (done : list (list string))    (* unknown variable: the commands before were executed, the rest is not *)
| NotCovered (done : list (list string)).

Definition snoc (s : string) (c : ascii) : string := s ++ String c "".
Definition read_plain (d : list (list string)) (ws : list string) (p : place) (c : ascii) : reader :=
  match p with
  | InComment => if Ascii.eqb c nl then Reading d [] AtStart else if Ascii.eqb c "\" then NotCovered d else Reading d [] InComment
  | AtStart => if is_blank c || is_end c then Reading d [] AtStart
               else if Ascii.eqb c "#" then Reading d [] InComment
               else if is_quoting c then NotCovered d
               else if Ascii.eqb c "$" then Reading d [] (InVar "" "") else Reading d [] (InWord (String c ""))
  | AtGap => if is_blank c then Reading d ws AtGap
             else if is_end c then Reading (d ++ [ws]) [] AtStart
             else if is_quoting c then NotCovered d
             else if Ascii.eqb c "$" then Reading d ws (InVar "" "") else Reading d ws (InWord (String c ""))
  | InWord w => if is_blank c then Reading d (ws ++ [w]) AtGap
                else if is_end c then Reading (d ++ [ws ++ [w]]) [] AtStart
                else if is_quoting c then NotCovered d
                else if Ascii.eqb c "$" then Reading d ws (InVar w "") else Reading d ws (InWord (snoc w c))
  | InVar w v => NotCovered d           (* see read_char *)
  end.
Section Tcl.
Variable vars : string -> option string.
Definition read_char (r : reader) (c : ascii) : reader :=
  match r with
  | Reading d ws (InVar w v) =>
      if is_name c then Reading d ws (InVar w (snoc v c))
      else if is_quoting c then NotCovered d
      else if String.eqb v "" then read_plain d ws (InWord (snoc w "$")) c
      else match vars v with Some x => read_plain d ws (InWord (w ++ x)) c | None => Failed d end
  | Reading d ws p => read_plain d ws p c
  | _ => r
  end.
Fixpoint read_all (r : reader) (s : string) : reader := match s with EmptyString => r | String c t => read_all (read_char r c) t end.
(** The commands of a script; the end of the script ends the last command. *)
Definition tcl (s : string) : reader := read_all (Reading [] [] AtStart) (snoc s nl).
End Tcl.

(** A text that Tcl reads as one word, as it stands. *)
Definition plain_char (c : ascii) : bool := negb (is_blank c || is_end c || is_quoting c || Ascii.eqb c "$").
Definition plain (s : string) : Prop := s <> "" /\ all_chars plain_char s = true.
(** A text without line ends and backslashes. *)
Definition one_comment (s : string) : Prop := all_chars (fun c => negb (Ascii.eqb c nl || Ascii.eqb c "\")) s = true.

(** The words Magic's manual has for the ways to treat shorts (ext2spice short ...) and parallel devices (ext2spice merge ...). *)
Definition short_word (m : short_mode) : string := match m with ShortNone => "none" | ShortResistor => "resistor" | ShortVoltage => "voltage" end.
Definition merge_word (m : merge_mode) : string := match m with MergeNone => "none" | MergeConservative => "conservative" | MergeAggressive => "aggressive" end.

(** ** Magic *)
(** What a cell holds: what the layout file had under a name, that flattened, or nothing. *)
Inductive content := Read (file name : string) | Flat (c : content) | Nothing.
(** Settings of extraction; [None] for texts: as Magic starts with. *)
Record esettings := ESet { e_resistance : bool; e_capacitance : bool; e_coupling : bool; e_halo : option string }.
Record ssettings := SSet { s_short : option string; s_merge : option string; s_cthresh : option string; s_rthresh : option string; s_extresist : bool; s_top : bool; s_format : option string }.
(** An extraction that is on disk: of which cell, with which settings, and the tolerance if resistances were refined. *)
Record extraction := Extraction { x_cell : string; x_content : content; x_settings : esettings; x_resist : option (option string) }.
Record netlist := Netlist { o_path : string; o_dir : string; o_of : option extraction; o_settings : ssettings }.
Record magic := Magic { m_cells : dict string content; m_current : option string; m_dir : option string; m_e : esettings; m_s : ssettings;
                        m_tolerance : option string; m_disk : list (string * extraction); m_netlists : list netlist; m_quit : bool }.

Definition current (m : magic) : content := match m_current m with Some c => match dget (m_cells m) c with Some k => k | None => Nothing end | None => Nothing end.
Definition last_in (dir cell : string) (l : list (string * extraction)) : option extraction :=
  option_map snd (find (fun e => String.eqb (fst e) dir && String.eqb (x_cell (snd e)) cell) (rev l)).

Section Magic.
(** The cells in a layout file. *)
Variable layout : string -> list string.

(** One command.  From the documentation of Magic; commands that do not matter here are left out:
    - load: a name that is not known gives a new empty cell,
    - flatten: refuses a name that is taken, and goes on,
    - rename: refuses a name that is taken, and goes on. *)
Definition command (m : magic) (ws : list string) : magic :=
  let '(Magic cells cur dir e s tol disk nets quit) := m in
  if quit then m else
  match ws with
  | [a; b; c] =>
      if String.eqb a "gds" && String.eqb b "read" then Magic (map (fun n => (n, Read c n)) (layout c)) cur dir e s tol disk nets quit
      else if String.eqb a "extract" && String.eqb b "path" then Magic cells cur (Some c) e s tol disk nets quit
      else if String.eqb a "extract" && String.eqb b "halo" then Magic cells cur dir (ESet (e_resistance e) (e_capacitance e) (e_coupling e) (Some c)) s tol disk nets quit
      else if String.eqb a "extract" && (String.eqb b "do" || String.eqb b "no") then
        let on := String.eqb b "do" in
        if String.eqb c "resistance" then Magic cells cur dir (ESet on (e_capacitance e) (e_coupling e) (e_halo e)) s tol disk nets quit
        else if String.eqb c "capacitance" then Magic cells cur dir (ESet (e_resistance e) on (e_coupling e) (e_halo e)) s tol disk nets quit
        else if String.eqb c "coupling" then Magic cells cur dir (ESet (e_resistance e) (e_capacitance e) on (e_halo e)) s tol disk nets quit
        else m
      else if String.eqb a "extresist" && String.eqb b "tolerance" then Magic cells cur dir e s (Some c) disk nets quit
      else if String.eqb a "ext2spice" then
        if String.eqb b "short" then Magic cells cur dir e (SSet (Some c) (s_merge s) (s_cthresh s) (s_rthresh s) (s_extresist s) (s_top s) (s_format s)) tol disk nets quit
        else if String.eqb b "merge" then Magic cells cur dir e (SSet (s_short s) (Some c) (s_cthresh s) (s_rthresh s) (s_extresist s) (s_top s) (s_format s)) tol disk nets quit
        else if String.eqb b "cthresh" then Magic cells cur dir e (SSet (s_short s) (s_merge s) (Some c) (s_rthresh s) (s_extresist s) (s_top s) (s_format s)) tol disk nets quit
        else if String.eqb b "rthresh" then Magic cells cur dir e (SSet (s_short s) (s_merge s) (s_cthresh s) (Some c) (s_extresist s) (s_top s) (s_format s)) tol disk nets quit
        else if String.eqb b "extresist" then Magic cells cur dir e (SSet (s_short s) (s_merge s) (s_cthresh s) (s_rthresh s) (String.eqb c "on") (s_top s) (s_format s)) tol disk nets quit
        else if String.eqb b "format" then Magic cells cur dir e (SSet (s_short s) (s_merge s) (s_cthresh s) (s_rthresh s) (s_extresist s) (s_top s) (Some c)) tol disk nets quit
        else m
      else m
  | [a; b] =>
      if String.eqb a "load" then Magic (if dmem cells b then cells else dset cells b Nothing) (Some b) dir e s tol disk nets quit
      else if String.eqb a "flatten" then if dmem cells b then m else Magic (dset cells b (Flat (current m))) cur dir e s tol disk nets quit
      else if String.eqb a "extract" && String.eqb b "all" then
        match cur, dir with
        | Some c, Some d => Magic cells cur dir e s tol (disk ++ [(d, Extraction c (current m) e None)]) nets quit
        | _, _ => m
        end
      else if String.eqb a "extresist" && String.eqb b "all" then
        match cur, dir with
        | Some c, Some d => match last_in d c disk with
                            | Some x => Magic cells cur dir e s tol (disk ++ [(d, Extraction c (x_content x) (x_settings x) (Some tol))]) nets quit
                            | None => m
                            end
        | _, _ => m
        end
      else if String.eqb a "quit" then Magic cells cur dir e s tol disk nets true
      else m
  | [a; b; c; d] =>
      if String.eqb a "cellname" && String.eqb b "delete" then
        Magic (dremove cells c) (if eqb cur (Some c) then None else cur) dir e s tol disk nets quit
      else if String.eqb a "cellname" && String.eqb b "rename" then
        match dget cells c with
        | Some k => if dmem cells d then m else Magic (dset (dremove cells c) d k) (if eqb cur (Some c) then Some d else cur) dir e s tol disk nets quit
        | None => m
        end
      else if String.eqb a "ext2spice" && String.eqb b "subcircuits" && String.eqb c "top" then
        Magic cells cur dir e (SSet (s_short s) (s_merge s) (s_cthresh s) (s_rthresh s) (s_extresist s) (String.eqb d "on") (s_format s)) tol disk nets quit
      else m
  | [a; b; c; d; f] =>
      if String.eqb a "ext2spice" && String.eqb b "-p" && String.eqb d "-o" then
        Magic cells cur dir e s tol disk (nets ++ [Netlist f c (match cur with Some k => last_in c k disk | None => None end) s]) quit
      else m
  | _ => m
  end.
Definition obey (m : magic) (cmds : list (list string)) : magic := fold_left command cmds m.
End Magic.

(** Magic after its start: no layout is loaded; the settings are what magicrc made them. *)
Definition started (e : esettings) (s : ssettings) (tol : option string) (disk : list (string * extraction)) : magic :=
  Magic [] None None e s tol disk [] false.

(** ** The commands that should be given *)
Definition wants_r (m : pex_mode) : bool := match m with MCC => false | _ => true end.
Definition wants_c (m : pex_mode) : bool := match m with MR => false | _ => true end.
Definition when {A} (b : bool) (l : list A) : list A := if b then l else [].
Definition intended (gds cell dir out : string) (mode : pex_mode) (cthresh rthresh tolerance : string) (halo : option string) (short merge : string) : list (list string) :=
  [["crashbackups"; "stop"]; ["drc"; "off"]; ["gds"; "read"; gds]; ["load"; cell]; ["select"; "top"; "cell"];
   ["flatten"; (cell ++ "_flat")%string]; ["load"; (cell ++ "_flat")%string]; ["cellname"; "delete"; cell; "-noprompt"];
   ["cellname"; "rename"; (cell ++ "_flat")%string; cell]; ["select"; "top"; "cell"]; ["extract"; "path"; dir]] ++
  match halo with Some h => [["extract"; "halo"; h]] | None => [] end ++
  when (wants_r mode) [["extract"; "do"; "resistance"]] ++
  when (negb (wants_c mode)) [["extract"; "no"; "capacitance"]; ["extract"; "no"; "coupling"]] ++
  [["extract"; "all"]] ++
  when (wants_r mode) [["ext2sim"; "labels"; "on"]; ["ext2sim"]; ["extresist"; "tolerance"; tolerance]; ["extresist"; "all"]] ++
  [["ext2spice"; "short"; short]; ["ext2spice"; "merge"; merge]] ++
  when (wants_c mode) [["ext2spice"; "cthresh"; cthresh]] ++
  when (wants_r mode) [["ext2spice"; "rthresh"; rthresh]; ["ext2spice"; "extresist"; "on"]] ++
  [["ext2spice"; "subcircuits"; "top"; "on"]; ["ext2spice"; "format"; "ngspice"]; ["ext2spice"; "-p"; dir; "-o"; out]; ["quit"; "-noprompt"]].

(** What each mode asks for, where [e] and [s] are the settings Magic starts with: resistances are extracted in the modes RC and R, capacitances
    and couplings not in the mode R, and each threshold applies in the modes that extract what it is about. *)
Definition asked_e (mode : pex_mode) (halo : option string) (e : esettings) : esettings :=
  ESet (wants_r mode || e_resistance e) (wants_c mode && e_capacitance e) (wants_c mode && e_coupling e) (match halo with Some h => Some h | None => e_halo e end).
Definition asked_s (mode : pex_mode) (short merge cthresh rthresh : string) (s : ssettings) : ssettings :=
  SSet (Some short) (Some merge) (if wants_c mode then Some cthresh else s_cthresh s) (if wants_r mode then Some rthresh else s_rthresh s)
       (wants_r mode || s_extresist s) true (Some "ngspice").

(** [z] is the number of halves of a hundredth of a micrometre (Magic's unit is 5 nm) nearest to [h]. *)
Definition halo_units (h : Qc) (z : Z) : Prop := (Q2Qc (inject_Z z) - h * Q2Qc 200 <= Q2Qc (1 # 2) /\ h * Q2Qc 200 - Q2Qc (inject_Z z) <= Q2Qc (1 # 2))%Qc.
Definition halo_text (h : option Qc) (t : option string) : Prop :=
  match h, t with
  | None, None => True
  | Some x, Some s => exists z, s = DecimalString.NilZero.string_of_int (Z.to_int z) /\ halo_units x z
  | _, _ => False
  end.

(** ** logs *)
(** Lines, each ended. *)
Fixpoint ended (ls : list string) : string := match ls with [] => "" | l :: t => (l ++ String nl (ended t))%string end.
Definition no_nl (s : string) : Prop := all_chars (fun c => negb (Ascii.eqb c nl)) s = true.
