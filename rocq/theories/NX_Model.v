(** Model of klayout_pex/rcx25/netlist_expander.py (RCX25NetlistExpander.expand).
    A kdb.Netlist is a list of circuits; nets and devices are records.  The extraction
    summary comes from ER_Model. *)
From Coq Require Import String Ascii DecimalString.
From Verif Require Import PyBase PyLib ER_Model.
Set Implicit Arguments.
Local Open Scope Qc_scope.

(** kdb.Net: identity and expanded_name().  For a net created by create_net(name) the
    expanded name is the name (KLayout would print "$id" for an empty name). *)
Record knet := KNet { n_id : nat; n_name : string }.
(** the classes matched in L54-67 *)
Inductive dev_class := CResistor | CResistorWithBulk | CCapacitor | CCapacitorWithBulk | CInductor
  | CBJT3 | CBJT4 | CDiode | CMOS3 | CMOS4 | COther.
(** kdb.Device: name, class, connected terminals (terminal name, net), parameters *)
Record device := Device { d_name : string; d_class : dev_class; d_terms : list (string * nat); d_params : list (string * Qc) }.
Record circuit := Circuit { c_name : string; c_nets : list knet; c_devices : list device }.
(** kdb.Netlist: circuits, and the registered device classes (name, class) *)
Record netlist := Netlist { circuits : list circuit; classes : list (string * dev_class) }.

(** f"{n}" for a natural number *)
Definition nat_str (n : nat) : string := NilEmpty.string_of_uint (Nat.to_uint n).

(** Circuit.create_net: a net with a new identity, appended *)
Definition fresh_id (l : list knet) : nat := S (list_max (map n_id l)).
Definition create_net (c : circuit) (name : string) : circuit * knet :=
  let n := KNet (fresh_id (c_nets c)) name in
  (Circuit (c_name c) (c_nets c ++ [n]) (c_devices c), n).
Definition create_device (c : circuit) (d : device) : circuit :=
  Circuit (c_name c) (c_nets c) (c_devices c ++ [d]).

Definition is_capacitor (k : dev_class) : bool :=
  match k with CCapacitor | CCapacitorWithBulk => true | _ => false end.
(** L47-67: removal of whiteboxed capacitors; the loop visits every device (KLayout's
    iterator is assumed to survive remove_device) *)
Definition remove_whiteboxed (c : circuit) : circuit :=
  Circuit (c_name c) (c_nets c) (filter (fun d => negb (is_capacitor (d_class d))) (c_devices c)).

(** name2net, L91: dict comprehension, the last net of a name wins *)
Definition name_table (l : list knet) : dict string knet :=
  fold_left (fun d n => dset d (n_name n) n) l [].

(** add_net_if_needed, L93-96 *)
Definition add_net_if_needed (st : circuit * dict string knet) (name : string) : circuit * dict string knet :=
  let (c, t) := st in
  if dmem t name then st
  else let (c1, n) := create_net c name in (c1, dset t name n).
(** L99-104 *)
Definition add_key_nets (st : circuit * dict string knet) (items : list (couple * Qc)) :=
  fold_left (fun st e => add_net_if_needed (add_net_if_needed st (fst (fst e))) (snd (fst e))) items st.

(** one created device, L110-113 / L122-125 *)
Definition ext_device (cl : dev_class) (param : string) (idx : nat) (n1 n2 : knet) (v : Qc) : device :=
  Device ("ext_" ++ nat_str (idx + 1)) cl [("A"%string, n_id n1); ("B"%string, n_id n2)] [(param, v)].
(** L106-116 / L118-128: enumerate over the sorted items; KeyError is [None] *)
Fixpoint add_devices (t : dict string knet) (cl : dev_class) (param : string) (idx : nat)
    (items : list (couple * Qc)) (c : circuit) : option circuit :=
  match items with
  | [] => Some c
  | (k, v) :: r =>
      match dget t (fst k), dget t (snd k) with
      | Some n1, Some n2 => add_devices t cl param (S idx) r (create_device c (ext_device cl param idx n1 n2 v))
      | _, _ => None
      end
  end.

(** tuple comparison (key, value) < (key', value') inside sorted(), L87-88: distinct dict
    keys, so the values are never compared *)
Definition item_lt (a b : couple * Qc) : bool := couple_lt (fst a) (fst b).

(** the circuit part of expand, L47-128 *)
Definition expand_circuit (c : circuit) (sm : summary) (blackbox : bool) : option circuit :=
  let c := if blackbox then c else remove_whiteboxed c in
  let (c, _) := create_net c "FC_GND" in
  let (c, _) := create_net c "VSUBS" in
  let cap_items := py_sorted item_lt (capacitances sm) in
  let res_items := py_sorted item_lt (resistances sm) in
  let (c, t) := add_key_nets (add_key_nets (c, name_table (c_nets c)) cap_items) res_items in
  match add_devices t CCapacitor "C" 0 cap_items c with
  | Some c => add_devices t CResistor "R" 0 res_items c
  | None => None
  end.

(** circuit_by_name, L45: the first circuit of that name *)
Fixpoint on_circuit (f : circuit -> option circuit) (name : string) (l : list circuit) : option (list circuit) :=
  match l with
  | [] => None
  | c :: t => if eqb (c_name c) name then match f c with Some c1 => Some (c1 :: t) | None => None end
              else match on_circuit f name t with Some t1 => Some (c :: t1) | None => None end
  end.

(** expand, L40-130.  [None]: no such circuit (AttributeError on None), or summarize raised. *)
Definition expand (nl : netlist) (top : string) (r : results) (blackbox : bool) : option netlist :=
  match summarize r with
  | None => None
  | Some sm =>
      match on_circuit (fun c => expand_circuit c sm blackbox) top (circuits nl) with
      | Some cs => Some (Netlist cs (classes nl ++ [("C"%string, CCapacitor); ("R"%string, CResistor)]))
      | None => None
      end
  end.
