(** Specification for C50, C51, C79: what the JSON netlist of a circuit must contain. *)
From Coq Require Import String.
From Verif Require Import PyBase PyLib NX_Model NJ_Model.
Local Open Scope string_scope.
Local Open Scope list_scope.

(** The name of a net. *)
Definition label (n : net) : string := if eqb (n_expanded n) "" then n_name n else n_expanded n.

(** All places of a circuit where a net can be connected, in the drawing order. *)
Definition places (c : circuit) : list (option net) :=
  map snd (c_pins c) ++ flat_map (fun s => map snd (i_pins s)) (c_subs c) ++ flat_map (fun d => [d_a d; d_b d]) (c_devs c).
(** The names of the nets that are connected somewhere. *)
Definition labels (c : circuit) : list string := flat_map (fun o => match o with Some n => [label n] | None => [] end) (places c).

(** The circuit can be drawn: nothing is left open and only capacitors and resistors occur. *)
Definition drawable (c : circuit) : Prop :=
  (forall o, In o (places c) -> o <> None) /\ (forall d, In d (c_devs c) -> d_class d <> OtherClass).

(** The value under a key if entries are written in this order: the last one. *)
Fixpoint last_with {A} (k : string) (l : list (string * A)) : option A :=
  match l with
  | [] => None
  | (k', a) :: t => match last_with k t with Some b => Some b | None => if eqb k k' then Some a else None end
  end.

Section Drawing.
Variable show3 : Qc -> string.
(** [f] gives the number of a net name. *)
Variable f : string -> nat.
Definition num (o : option net) : nat := match o with Some n => f (label n) | None => 0%nat end.

Definition port_entry (p : string * option net) : string * nat := (fst p, num (snd p)).

Definition pin_text (p : nat * option net) : string :=
  (nat_str (fst p) ++ "=" ++ match snd p with Some n => n_expanded n | None => "" end)%string.
Definition sub_entry (s : instance) : string * cell :=
  ((i_name s ++ nat_str (i_index s))%string,
   Cell (Some 1%nat) ("$" ++ i_name s) (Some (map (fun p => (pin_text p, "input"%string)) (i_pins s))) (map (fun p => (pin_text p, num (snd p))) (i_pins s)) None).

Definition dev_entry (d : device) : string * cell :=
  let ab := [("A"%string, num (d_a d)); ("B"%string, num (d_b d))] in
  match d_class d with
  | Capacitor => (("C" ++ d_name d)%string, Cell None "c_v" None ab (Some (show3 (d_value d * Q2Qc (10 ^ 15)%Q)%Qc ++ "f")%string))
  | _ => (("R" ++ d_name d)%string, Cell None "r_v" None ab (Some (show3 (d_value d))))
  end.

Definition ground (key name : string) : string * cell :=
  (key, Cell None "gnd" (Some [("A"%string, "input"%string)]) [("A"%string, f name)] (Some name)).
(** One ground symbol for each of the two ground nets that occur among [ls]. *)
Definition grounds (ls : list string) : list (string * cell) :=
  match in_dec eq_dec "VSUBS"%string ls, in_dec eq_dec "GND"%string ls with
  | left _, left _ => [ground "gnd" "VSUBS"; ground "gnd1" "GND"]
  | left _, right _ => [ground "gnd" "VSUBS"]
  | right _, left _ => [ground "gnd" "GND"]
  | right _, right _ => []
  end.

(** All cells to draw, with their keys; [ls] are the net names known to the writer. *)
Definition entries (ls : list string) (c : circuit) : list (string * cell) :=
  map sub_entry (c_subs c) ++ map dev_entry (c_devs c) ++ grounds ls.

(** The module [m] shows the circuit [c]. *)
Definition shows (ls : list string) (c : circuit) (m : module) : Prop :=
  m_name m = c_name c /\
  (forall k, dget (m_ports m) k = last_with k (map port_entry (c_pins c))) /\
  (forall k, dget (m_cells m) k = last_with k (entries ls c)).
End Drawing.

(** [f] tells the names of [ls] apart. *)
Definition tells_apart (f : string -> nat) (ls : list string) : Prop := forall a b, In a ls -> In b ls -> f a = f b -> a = b.

(** KLayout numbers the pins of a circuit without repetition. *)
Definition pins_numbered (c : circuit) : Prop := forall s, In s (c_subs c) -> NoDup (map fst (i_pins s)).
