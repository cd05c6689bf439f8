(** The JSON netlist for netlistsvg and the `netlist svg` command:
    klayout_pex/netlistsvg/netlist_json.py and klayout_pex/netlist/netlist_cli.py. *)
From Coq Require Import String.
From Verif Require Import PyBase PyLib NX_Model.
Local Open Scope string_scope.
Local Open Scope list_scope.

(** A KLayout net as the writer sees it (netlist_json.py L43, L84): [n_no] tells two nets apart and is never looked at by the code;
    [n_expanded] is [expanded_name()] and [n_name] is [name]. *)
Record net := Net { n_no : nat; n_expanded : string; n_name : string }.

(** A device (L98-135): its class, [expanded_name() or name], terminals A and B ([None]: nothing connected) and its parameter C or R.
    Device classes other than capacitors and resistors are one case, as L134-135 treats them alike.
    Simplified: parameters are exact rationals instead of floats, and every capacitor has a C and every resistor an R. *)
Inductive class := Capacitor | Resistor | OtherClass.
Record device := Device { d_class : class; d_name : string; d_a : option net; d_b : option net; d_value : Qc }.

(** A subcircuit instance (L75-87): name and cell index of the circuit it refers to, and for every pin of that circuit the pin id and
    the net [sc.net_for_pin(pin.id())] outside. *)
Record instance := Instance { i_name : string; i_index : nat; i_pins : list (nat * option net) }.

(** The top circuit (L51-53, L75, L98): pins with their name and net, instances and devices in the order KLayout iterates them. *)
Record circuit := Circuit { c_name : string; c_pins : list (string * option net); c_subs : list instance; c_devs : list device }.

(** One entry of the "cells" dictionary (L89-96, L110-119, L124-133, L144-155); [None] for a key the entry has not.
    Simplified: every "bits" or connection list has exactly one element in the code, so it is kept as that number. *)
Record cell := Cell { j_hide : option nat; j_type : string; j_dirs : option (dict string string); j_conns : dict string nat; j_value : option string }.
(** The dictionary of one module (L162-169). A port (L58-61) always has the direction 'input', so only its bit is kept. *)
Record module := Module { m_name : string; m_ports : dict string nat; m_cells : dict string cell }.

(** The writer object, L38-40. *)
Record writer := Writer { next_id : nat; id_for_net : dict string nat }.
Definition new_writer : writer := Writer 0%nat [].

(** A step of the writer: it changes the writer, and [None] means that an exception was raised.
    What the writer had recorded until then stays. *)
Definition act (A : Type) := writer -> writer * option A.
Definition ret {A} (a : A) : act A := fun w => (w, Some a).
Definition bind {A B} (m : act A) (f : A -> act B) : act B :=
  fun w => match m w with (w1, Some a) => f a w1 | (w1, None) => (w1, None) end.
Definition raise {A} : act A := fun w => (w, None).

(** `x or y` on strings (L43, L102). *)
Definition or_else (a b : string) : string := if eqb a "" then b else a.

(** L42-49 [_get_or_create_id]; the attribute access on [None] raises. *)
Definition get_or_create_id (n : option net) : act nat :=
  match n with
  | None => raise
  | Some n => fun w =>
      let net_name := or_else (n_expanded n) (n_name n) in
      match dget (id_for_net w) net_name with
      | Some i => (w, Some i)
      | None => (Writer (next_id w + 1)%nat (dset (id_for_net w) net_name (next_id w)), Some (next_id w))
      end
  end.

(** L51-63 [dict_for_ports]. *)
Fixpoint dict_for_ports (pins : list (string * option net)) (port_dict : dict string nat) : act (dict string nat) :=
  match pins with
  | [] => ret port_dict
  | (name, n) :: t => bind (get_or_create_id n) (fun bit => dict_for_ports t (dset port_dict name bit))
  end.

(** L81-87: the pins of one instance; [expanded_name()] of [None] raises as well. *)
Fixpoint instance_pins (pins : list (nat * option net)) (dirs : dict string string) (conns : dict string nat) : act (dict string string * dict string nat) :=
  match pins with
  | [] => ret (dirs, conns)
  | (id, n) :: t =>
      match n with
      | None => raise
      | Some m =>
          let pin_text := (nat_str id ++ "=" ++ n_expanded m)%string in
          bind (get_or_create_id n) (fun i => instance_pins t (dset dirs pin_text "input") (dset conns pin_text i))
      end
  end.

(** L75-96: all instances. *)
Fixpoint instances (subs : list instance) (cells : dict string cell) : act (dict string cell) :=
  match subs with
  | [] => ret cells
  | s :: t =>
      bind (instance_pins (i_pins s) [] []) (fun dc =>
      instances t (dset cells (i_name s ++ nat_str (i_index s))%string
                             (Cell (Some 1%nat) ("$" ++ i_name s) (Some (fst dc)) (snd dc) None)))
  end.

Section Shown.
(** The text of `round(x, 3)` (L109, L117, L131): an oracle, Python's float formatting is not modelled. *)
Variable show3 : Qc -> string.

Definition femto : Qc := Q2Qc (1000000000000000 # 1).

(** L98-135: all devices. *)
Fixpoint devices (devs : list device) (cells : dict string cell) : act (dict string cell) :=
  match devs with
  | [] => ret cells
  | d :: t =>
      match d_class d with
      | Capacitor =>
          bind (get_or_create_id (d_a d)) (fun a => bind (get_or_create_id (d_b d)) (fun b =>
          devices t (dset cells ("C" ++ d_name d)%string
                      (Cell None "c_v" None (dset (dset [] "A" a) "B" b) (Some (show3 (d_value d * femto)%Qc ++ "f")%string)))))
      | Resistor =>
          bind (get_or_create_id (d_a d)) (fun a => bind (get_or_create_id (d_b d)) (fun b =>
          devices t (dset cells ("R" ++ d_name d)%string
                      (Cell None "r_v" None (dset (dset [] "A" a) "B" b) (Some (show3 (d_value d)))))))
      | OtherClass => raise
      end
  end.

(** L137-155: the ground symbols. *)
Fixpoint ground_symbols (names : list string) (gnd_counter : nat) (cells : dict string cell) : act (dict string cell) :=
  match names with
  | [] => ret cells
  | gnd_name :: t => fun w =>
      match dget (id_for_net w) gnd_name with
      | None => ground_symbols t gnd_counter cells w
      | Some gnd_id =>
          let device_name := ("gnd" ++ (if Nat.eqb gnd_counter 0 then "" else nat_str gnd_counter))%string in
          ground_symbols t (gnd_counter + 1)%nat
            (dset cells device_name (Cell None "gnd" (Some [("A"%string, "input"%string)]) [("A"%string, gnd_id)] (Some gnd_name))) w
      end
  end.

(** L65-157 [dict_for_cells]; the unused alias tables of L66-71 are left out. *)
Definition dict_for_cells (c : circuit) : act (dict string cell) :=
  bind (instances (c_subs c) []) (fun cells =>
  bind (devices (c_devs c) cells) (fun cells =>
  ground_symbols ["VSUBS"; "GND"]%string 0%nat cells)).

(** L159-170 [netlist_json_dict]: the ports are evaluated before the cells. *)
Definition netlist_json_dict (c : circuit) : act module :=
  bind (dict_for_ports (c_pins c) []) (fun ports =>
  bind (dict_for_cells c) (fun cells => ret (Module (c_name c) ports cells))).

(** Several calls of [netlist_json_dict] on one writer, each result or exception (tests/netlistsvg/netlist_json_test.py L57-63 calls twice). *)
Fixpoint calls (cs : list circuit) (w : writer) : list (option module) :=
  match cs with
  | [] => []
  | c :: t => snd (netlist_json_dict c w) :: calls t (fst (netlist_json_dict c w))
  end.

(** L172-178 [write_json]: the file is opened for writing, hence emptied, before the dictionary is built.
    [dump] is json.dump with indent 4. *)
Definition write_json (dump : module -> string) (c : circuit) (path : string) (fs : dict string string) (w : writer) : dict string string * writer * bool :=
  match netlist_json_dict c w with
  | (w1, Some m) => (dset fs path (dump m), w1, true)
  | (w1, None) => (dset fs path "", w1, false)
  end.
End Shown.

(** netlist_cli.py L142-182 [run_netlistsvg]: which circuit of the netlist is drawn; [Exit n] is sys.exit(n).
    [tops] is [netlist.top_circuits()] and [cell] the --cell argument of L105, which the function never reads.
    Not modelled: reading the SPICE file, the run directory and the call of the netlistsvg program. *)
Inductive svg := Exit (code : nat) | Draw (c : circuit).
Definition run_netlistsvg (tops : list circuit) (cell : option string) : svg :=
  match tops with
  | [] => Exit 1
  | [c] => Draw c
  | _ => Exit 2
  end.
