(** The text of a resistor network: ResistorNetwork.__str__ and to_string, klayout_pex/rcx25/r/resistor_network.py L102-132, and
    Conductance.__str__ and res, klayout_pex/rcx25/r/conductance.py L37-41.  Networks are as in RN_Model; ZeroDivisionError is [None]. *)
From Coq Require Import String.
From Verif Require Import PyBase PyLib PyStr RN_Model.
From Verif Require NX_Model.
Local Open Scope string_scope.
Local Open Scope list_scope.

Section Text.
(** '%.6g' % v, conductance.py L38 and L41 *)
Variable g_text : Qc -> string.
(** str() of a kdb.Point, resistor_network.py L115 *)
Variable point_text : point -> string.

(** nn, nna and nnb, resistor_network.py L114, L121-122, L129-130 *)
Definition label (n : net) (i : nid) : string := match dget (node_names n) i with Some nn => nn | None => NX_Model.nat_str i end.
(** resistor_network.py L115; the id is a key of self.locations *)
Definition node_line (n : net) (i : nid) : string :=
  ("  " ++ label n i ++ ": " ++ match dget (locations n) i with Some p => point_text p | None => "" end)%string.
(** < on pairs of ids, for sorted(self.s.keys()), resistor_network.py L119 and L127 *)
Definition pair_lt (x y : nid * nid) : bool := Nat.ltb (fst x) (fst y) || Nat.eqb (fst x) (fst y) && Nat.ltb (snd x) (snd y).
(** the keys that are shown, resistor_network.py L119-120 and L127-128 *)
Definition shown_pairs (n : net) : list (nid * nid) := filter (fun ab => Nat.ltb (fst ab) (snd ab)) (py_sorted pair_lt (dkeys (s n))).
(** __str__ and res of the object stored for a pair, conductance.py L37-41 *)
Definition value_text (n : net) (resistance : bool) (ab : nid * nid) : option string :=
  match dget (s n) ab with
  | Some r => let c := hget (heap n) r in if resistance then if eqb c 0%Qc then None else Some (g_text (1 / c)%Qc) else Some (g_text c)
  | None => None
  end.
(** resistor_network.py L123 and L131 *)
Definition pair_line (n : net) (resistance : bool) (ab : nid * nid) : option string :=
  option_map (fun v => "  " ++ label n (fst ab) ++ "," ++ label n (snd ab) ++ ": " ++ v)%string (value_text n resistance ab).
(** the loop over the pairs, resistor_network.py L119-123 and L127-131 *)
Fixpoint pair_lines (n : net) (resistance : bool) (l : list (nid * nid)) : option (list string) :=
  match l with
  | [] => Some []
  | ab :: r => match pair_line n resistance ab, pair_lines n resistance r with Some x, Some y => Some (x :: y) | _, _ => None end
  end.
(** to_string, resistor_network.py L105-132 *)
Definition to_string (n : net) (resistance : bool) : option string :=
  option_map (fun ls => join nl (("Nodes:" :: map (node_line n) (py_sorted Nat.ltb (dkeys (locations n)))) ++ (if resistance then "Resistors:" else "Conductors:") :: ls))
    (pair_lines n resistance (shown_pairs n)).
(** __str__, resistor_network.py L102-103 *)
Definition str_network (n : net) : option string := to_string n false.
End Text.
