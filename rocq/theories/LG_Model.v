(** Model of the log parsers klayout_pex/fastercap/fastercap_runner.py (L105-129) and
    klayout_pex/fastcap/fastcap_runner.py (L112-143).  float() is a parameter, exceptions
    (IndexError, ValueError, no match, no header) are [None].  Logged warnings are left out. *)
From Coq Require Import String Ascii ZArith.
From Verif Require Import PyBase PyLib PyStr CM_Model.
Local Open Scope string_scope.

Section Parsers.
Variable parse_float : string -> option Qc.

(** cells of a line, fastercap L120-122 *)
Definition nonempty (s : string) : bool := negb (String.eqb s "").
Definition line_cells (line : string) : list string :=
  filter nonempty (map strip (split_on " " (strip line))).
(** float(cell)/1e6, fastercap L124, fastcap L138 *)
Definition scaled (cell : string) : option Qc :=
  match parse_float cell with Some v => Some (v / Q2Qc 1000000)%Qc | None => None end.
(** a row, fastercap L123-125: cells[0] and the numbers *)
Definition row_of_cells (cells : list string) : option (string * list Qc) :=
  match cells with
  | [] => None
  | name :: rest => match map_opt scaled rest with Some r => Some (name, r) | None => None end
  end.
Definition matrix_of (rs : list (string * list Qc)) : cap_matrix := CapMatrix (map fst rs) (map snd rs).

(** the end anchor: end of the string, or before a final newline *)
Definition at_end (s : string) : bool := String.eqb s "" || String.eqb s (String nl "").
(** the match of L113 for the dimension line, and dim of L116 *)
Definition dimension_line (s : string) : option nat :=
  match drop_prefix "Dimension " s with
  | None => None
  | Some r =>
      let (d1, r1) := span_digits r in
      if nonempty d1 then
        match drop_prefix " x " r1 with
        | None => None
        | Some r2 => let (d2, r3) := span_digits r2 in
                     if nonempty d2 && at_end r3 then Some (digits_val 0 d1) else None
        end
      else None
  end.
(** reversed(range(idx-1-dim, idx-1)), fastercap L119, fastcap L130 *)
Definition row_indices (idx dim : nat) : list Z :=
  map (fun k => (Z.of_nat idx - 2 - Z.of_nat k)%Z) (seq 0 dim).

(** the body for the header at rlines[idx], fastercap L113-127 *)
Definition fastercap_block (rlines : list string) (idx : nat) : option cap_matrix :=
  match py_index rlines (Z.of_nat idx - 1) with
  | None => None
  | Some dl =>
      match dimension_line dl with
      | None => None
      | Some dim =>
          match map_opt (fun i => match py_index rlines i with
                                  | Some line => row_of_cells (line_cells line)
                                  | None => None end) (row_indices idx dim) with
          | Some rs => Some (matrix_of rs)
          | None => None
          end
      end
  end.
(** index of the first line (of the reversed file) that passes the test *)
Fixpoint find_index (p : string -> bool) (l : list string) : option nat :=
  match l with
  | [] => None
  | x :: r => if p x then Some 0%nat else match find_index p r with Some i => Some (S i) | None => None end
  end.
Definition is_header (line : string) : bool := String.eqb (strip line) "Capacitance matrix is:".
(** fastercap_parse_capacitance_matrix, L105-129, from the text of the log *)
Definition fastercap_parse (text : string) : option cap_matrix :=
  let rlines := rev (readlines text) in
  match find_index is_header rlines with
  | Some idx => fastercap_block rlines idx
  | None => None
  end.

(** ** FastCap *)
(** \w of the pattern at fastcap_runner.py L120, for ASCII *)
Definition is_word_char (c : ascii) : bool :=
  let n := nat_of_ascii c in
  isdigit c || (Nat.leb 65 n && Nat.leb n 90) || (Nat.leb 97 n && Nat.leb n 122) || Nat.eqb n 95.
(** L119 *)
Definition is_fc_header (line : string) : bool :=
  match drop_prefix "CAPACITANCE MATRIX, " line with Some _ => true | None => false end.
(** the match of L120: at least one word character follows; the unit itself is not used *)
Definition has_unit (line : string) : bool :=
  match drop_prefix "CAPACITANCE MATRIX, " line with Some (String c _) => is_word_char c | _ => false end.
(** s.split(): number of maximal runs of non-blank characters, L125-127 *)
Fixpoint count_words (inside : bool) (s : string) : nat :=
  match s with
  | EmptyString => 0
  | String c t => if isspace c then count_words false t
                  else (if inside then 0 else 1) + count_words true t
  end.
(** cells.pop(1), L135; IndexError when there is none *)
Definition pop1 (cells : list string) : option (list string) :=
  match cells with a :: _ :: r => Some (a :: r) | _ => None end.
(** a row, L131-139 *)
Definition fastcap_row (line : string) : option (string * list Qc) :=
  match pop1 (map strip (split_on " " (strip line))) with
  | Some cells => row_of_cells (filter nonempty cells)
  | None => None
  end.
(** fastcap_parse_capacitance_matrix, L112-143 *)
Definition fastcap_block (rlines : list string) (idx : nat) : option cap_matrix :=
  match nth_error rlines idx with
  | None => None
  | Some h =>
      if has_unit h then
        match py_index rlines (Z.of_nat idx - 1) with
        | None => None
        | Some dl =>
            let dim := count_words false (strip dl) in
            match map_opt (fun i => match py_index rlines i with Some line => fastcap_row line | None => None end)
                    (row_indices idx dim) with
            | Some rs => Some (matrix_of rs)
            | None => None
            end
        end
      else None
  end.
(** fastcap_runner.py L112-119, L143: the last matrix of the log *)
Definition fastcap_parse (text : string) : option cap_matrix :=
  let rlines := rev (readlines text) in
  match find_index is_fc_header rlines with
  | Some idx => fastcap_block rlines idx
  | None => None
  end.
End Parsers.
