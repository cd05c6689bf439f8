(** What a capacitance matrix block of a solver log looks like. *)
From Coq Require Import String Ascii.
From Verif Require Import PyBase PyLib PyStr.
Local Open Scope string_scope.

Fixpoint spaces (n : nat) : string := match n with O => "" | S k => String " " (spaces k) end.
(** tokens, each preceded by that many blanks, and an end of line *)
Fixpoint line_text (toks : list (nat * string)) (tail : string) : string :=
  match toks with [] => tail | (n, t) :: r => spaces n ++ t ++ line_text r tail end.
Definition token (t : string) : Prop := t <> "" /\ no_space t = true.
(** a line with these tokens: at least one blank between them, any white space at the end *)
Definition tokens_line (line : string) (toks : list string) : Prop :=
  exists n0 t0 r tail, line = line_text ((n0, t0) :: r) tail /\ toks = t0 :: map snd r /\
    Forall token toks /\ Forall (fun p => (1 <= fst p)%nat) r /\ all_chars isspace tail = true.

Definition numbers (parse_float : string -> option Qc) (texts : list string) (vals : list Qc) : Prop :=
  Forall2 (fun t v => parse_float t = Some v) texts vals.
(** a FasterCap row: name, then one number per conductor *)
Definition fastercap_row (parse_float : string -> option Qc) (line : string) (r : string * list Qc) : Prop :=
  exists texts, tokens_line line (fst r :: texts) /\ numbers parse_float texts (snd r).
(** "Dimension n x k" *)
Definition says_dimension (line : string) (n : nat) : Prop :=
  exists d1 d2 tail, line = "Dimension " ++ d1 ++ " x " ++ d2 ++ tail /\ d1 <> "" /\ d2 <> "" /\
    all_chars isdigit d1 = true /\ all_chars isdigit d2 = true /\ digits_val 0 d1 = n /\ (tail = "" \/ tail = String nl "").
Definition matrix_header (line : string) : Prop := strip line = "Capacitance matrix is:".
Definition micro (v : Qc) : Qc := (v / Q2Qc 1000000)%Qc.
(** ** FastCap *)
Definition letters : string := "abcdefghijklmnopqrstuvwxyzABCDEFGHIJKLMNOPQRSTUVWXYZ".
(** the line above a matrix: a keyword and a unit, which starts with a letter *)
Definition fastcap_header (line : string) : Prop := exists c unit k, line = "CAPACITANCE MATRIX, " ++ String c unit /\ String.get k letters = Some c.
Definition starts_fc (line : string) : Prop := exists r, line = "CAPACITANCE MATRIX, " ++ r.
(** such a line without a unit: nothing follows, or white space *)
Definition without_unit (line : string) : Prop :=
  line = "CAPACITANCE MATRIX, " \/ exists c r, line = "CAPACITANCE MATRIX, " ++ String c r /\ isspace c = true.
