(** Reading the text of a resistor network, for C106. *)
From Coq Require Import String Ascii DecimalString DecimalNat.
From Verif Require Import PyBase PyStr RN_Model.
Local Open Scope string_scope.
Local Open Scope list_scope.

(** the resistor between two nodes has this conductance *)
Definition resistor (n : net) (a b : nid) (g : Qc) : Prop := exists r, dget (s n) (a, b) = Some r /\ hget (heap n) r = g.
(** the name given to a node, or its number in decimal digits *)
Definition called (n : net) (i : nid) (l : string) : Prop :=
  match dget (node_names n) i with Some nn => l = nn | None => l = NilEmpty.string_of_uint (Nat.to_uint i) end.
(** no comma, colon or line end *)
Definition plain (x : string) : Prop := all_chars (fun c => negb (Ascii.eqb c ",") && negb (Ascii.eqb c ":") && negb (Ascii.eqb c nl))%char x = true.
(** no colon or line end *)
Definition plain_value (x : string) : Prop := all_chars (fun c => negb (Ascii.eqb c ":") && negb (Ascii.eqb c nl))%char x = true.

(** the text after two blanks *)
Definition indented (x : string) : option string := match x with String " " (String " " r) => Some r | _ => None end.
(** "  label: text" *)
Definition read_line (x : string) : option (string * string) :=
  match indented x with
  | Some r => match split_on ":" r with [l; String " " v] => Some (l, v) | _ => None end
  | None => None
  end.
(** "  label,label: text" *)
Definition read_pair (x : string) : option (string * string * string) :=
  match read_line x with
  | Some (ab, v) => match split_on "," ab with [a; b] => Some (a, b, v) | _ => None end
  | None => None
  end.
Fixpoint read_pairs (l : list string) : option (list (string * string * string)) :=
  match l with
  | [] => Some []
  | x :: r => match read_pair x, read_pairs r with Some p, Some q => Some (p :: q) | _, _ => None end
  end.
(** node lines up to the next heading, which has no blanks in front *)
Fixpoint read_nodes (l : list string) : option (list (string * string) * string * list (string * string * string)) :=
  match l with
  | [] => None
  | x :: r =>
      match indented x with
      | None => option_map (fun ps => ([], x, ps)) (read_pairs r)
      | Some _ => match read_line x, read_nodes r with Some p, Some (ns, h, ps) => Some (p :: ns, h, ps) | _, _ => None end
      end
  end.
(** nodes with their places, the heading of the second part, and its pairs with their values *)
Definition read_text (t : string) : option (list (string * string) * string * list (string * string * string)) :=
  match split_on nl t with
  | h :: r => if String.eqb h "Nodes:" then read_nodes r else None
  | [] => None
  end.
Definition pair_before (x y : nid * nid) : Prop := (fst x < fst y \/ fst x = fst y /\ snd x < snd y)%nat.
