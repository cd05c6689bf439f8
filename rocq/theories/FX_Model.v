(** Model of klayout_pex/klayout/netlist_expander.py (FasterCap netlist expansion) and
    klayout_pex/klayout/netlist_reducer.py.  The netlist types come from NX_Model. *)
From Coq Require Import String Ascii.
From Verif Require Import PyBase PyLib PyStr ER_Model NX_Model CM_Model.
Set Implicit Arguments.
Local Open Scope Qc_scope.

(** the tail of the pattern of L67, a group of dot-star followed by the end anchor: everything
    up to the end, or up to a single trailing newline *)
Fixpoint dot_star_end (s : string) : option string :=
  match s with
  | EmptyString => Some ""%string
  | String c r => if Ascii.eqb c nl then match r with EmptyString => Some ""%string | _ => None end
                  else match dot_star_end r with Some t => Some (String c t) | None => None end
  end.
(** pattern.match(nn).group(1), L67-70: a g, one or more digits, an underscore, and the rest of the
    line, which is the group; [None]: no match, so that m.group raises AttributeError.  The digit
    class is taken as the ASCII digits. *)
Definition axis_net_name (nn : string) : option string :=
  match drop_prefix "g" nn with
  | None => None
  | Some r =>
      let (ds, r1) := span_digits r in
      match ds with
      | EmptyString => None
      | _ => match drop_prefix "_" r1 with Some rest => dot_star_end rest | None => None end
      end
  end.
(** L68-74: the net of one matrix axis *)
Definition axis_net (t : dict string knet) (nn : string) : option knet :=
  match axis_net_name nn with Some s => dget t s | None => None end.

(** L47-51: all devices are removed (the iterator is assumed to survive remove_device) *)
Definition remove_devices (c : circuit) : circuit := Circuit (c_name c) (c_nets c) [].

Definition cap_name (i j : nat) : string := ("Cext_" ++ nat_str i ++ "_" ++ nat_str j)%string.
(** add_parasitic_cap, L76-93, with cap_threshold = 0.0 *)
Definition add_parasitic_cap (i j : nat) (net1 net2 : knet) (v : Qc) (c : circuit) : option circuit :=
  if qltb 0 v then
    let c1 := create_device c (Device (cap_name i j) CCapacitor
                [("A"%string, n_id net1); ("B"%string, n_id net2)] [("C"%string, v)]) in
    if Nat.eqb (n_id net1) (n_id net2) then None else Some c1
  else Some c.

(** body of the inner loop, L111-118.  State: cap_ii and the circuit. *)
Definition col_step (nets : list knet) (row : list Qc) (i : nat) (st : option (Qc * circuit)) (j : nat) : option (Qc * circuit) :=
  match st with
  | None => None
  | Some (cap_ii, c) =>
      if Nat.eqb i j then st
      else match nth_error row j with
           | None => None
           | Some x =>
               let cap_value := - x in
               let cap_ii := cap_ii - cap_value in
               if Nat.ltb i j then
                 match nth_error nets i, nth_error nets j with
                 | Some n1, Some n2 =>
                     match add_parasitic_cap i j n1 n2 cap_value c with
                     | Some c1 => Some (cap_ii, c1)
                     | None => None
                     end
                 | _, _ => None
                 end
               else Some (cap_ii, c)
           end
  end.
(** body of the outer loop, L107-122 *)
Definition row_step (nets : list knet) (m : cap_matrix) (st : option circuit) (i : nat) : option circuit :=
  match st with
  | None => None
  | Some c =>
      match nth_error (rows m) i with
      | None => None
      | Some row =>
          match nth_error row i with
          | None => None
          | Some d =>
              match fold_left (col_step nets row i) (seq 0 (dimension m)) (Some (d, c)) with
              | None => None
              | Some (cap_ii, c1) =>
                  if Nat.ltb 0 i then
                    match nth_error nets i, nth_error nets 0 with
                    | Some n1, Some n0 => add_parasitic_cap i i n1 n0 cap_ii c1
                    | _, _ => None
                    end
                  else Some c1
              end
          end
      end
  end.

(** the zero ohm resistors, L138-146 *)
Definition short_res (name : string) (a b : knet) : device :=
  Device name CResistor [("A"%string, n_id a); ("B"%string, n_id b)] [("R"%string, 0)].

(** the circuit part of expand, L47-146 *)
Definition fc_expand_circuit (c : circuit) (m : cap_matrix) (blackbox : bool) : option circuit :=
  let c := if blackbox then c else remove_devices c in
  let (c, fc_gnd_net) := create_net c "FC_GND" in
  let (c, vsubs_net) := create_net c "VSUBS" in
  let name2net := name_table (c_nets c) in
  match map_opt (axis_net name2net) (conductor_names m) with
  | None => None
  | Some nets =>
      match fold_left (row_step nets m) (seq 0 (dimension m)) (Some c) with
      | None => None
      | Some c =>
          let (c, gnd_net) := match dget name2net "GND"%string with
                              | Some n => (c, n)
                              | None => create_net c "GND"
                              end in
          let c := create_device c (short_res "Rext_FC_GND_GND" fc_gnd_net gnd_net) in
          Some (create_device c (short_res "Rext_VSUBS_GND" vsubs_net gnd_net))
      end
  end.

(** NetlistExpander.expand, L39-148; the netlist is duplicated first, so the result is a new value *)
Definition fc_expand (nl : netlist) (top : string) (m : cap_matrix) (blackbox : bool) : option netlist :=
  match on_circuit (fun c => fc_expand_circuit c m blackbox) top (circuits nl) with
  | Some cs => Some (Netlist cs (classes nl ++ [("PEX_CAP"%string, CCapacitor); ("PEX_RES"%string, CResistor)]))
  | None => None
  end.

Section Reducer.
(** kdb.Netlist.combine_devices *)
Variable combine_devices : netlist -> netlist.
(** d.parameter('C'): 0 when it was never set *)
Definition c_value (d : device) : Qc := dgetd (d_params d) "C"%string.
(** L45-57 *)
Definition to_remove (cap_threshold : Qc) (d : device) : bool :=
  is_capacitor (d_class d) && qltb (c_value d) cap_threshold.
(** NetlistReducer.reduce, L34-63 *)
Definition reduce (nl : netlist) (top : string) (cap_threshold : Qc) : option netlist :=
  let nl := combine_devices nl in
  match on_circuit (fun c => Some (Circuit (c_name c) (c_nets c) (filter (fun d => negb (to_remove cap_threshold d)) (c_devices c))))
          top (circuits nl) with
  | Some cs => Some (Netlist cs (classes nl))
  | None => None
  end.
End Reducer.
