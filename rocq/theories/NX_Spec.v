(** What it means that a device stands for an entry of the summary. *)
From Coq Require Import String.
From Verif Require Import PyBase PyLib ER_Model NX_Model.
Set Implicit Arguments.
Local Open Scope Qc_scope.

(** device [d] of circuit [c] connects nets called [fst (fst e)] and [snd (fst e)] and has the value of [e] *)
Definition represents (c : circuit) (cl : dev_class) (param : string) (d : device) (e : couple * Qc) : Prop :=
  d_class d = cl /\ d_params d = [(param, snd e)] /\
  exists n1 n2, In n1 (c_nets c) /\ In n2 (c_nets c) /\
    n_name n1 = fst (fst e) /\ n_name n2 = snd (fst e) /\
    d_terms d = [("A"%string, n_id n1); ("B"%string, n_id n2)].

(** the net names an entry list needs *)
Definition names_of (l : list (couple * Qc)) : list string := flat_map (fun e => [fst (fst e); snd (fst e)]) l.

Definition is_cap_device (d : device) : Prop := d_class d = CCapacitor \/ d_class d = CCapacitorWithBulk.

(** [c'] is [c] expanded by summary [sm] *)
Record expanded (c c' : circuit) (sm : summary) (blackbox : bool) : Prop := {
  x_name : c_name c' = c_name c;
  (* original nets first, then FC_GND and VSUBS, then exactly the missing names, each once *)
  x_nets : exists g v extra, c_nets c' = c_nets c ++ g :: v :: extra /\
     n_name g = "FC_GND"%string /\ n_name v = "VSUBS"%string /\
     NoDup (map n_name extra) /\
     (forall s, In s (map n_name extra) <->
        In s (names_of (capacitances sm ++ resistances sm)) /\
        ~ In s (map n_name (c_nets c)) /\ s <> "FC_GND"%string /\ s <> "VSUBS"%string);
  x_ids : NoDup (map n_id (c_nets c)) -> NoDup (map n_id (c_nets c'));
  (* original devices, then one capacitor per entry, then one resistor per entry *)
  x_devices : exists kept caps ress capl resl,
     c_devices c' = kept ++ caps ++ ress /\
     (blackbox = true -> kept = c_devices c) /\
     (blackbox = false -> forall d, (In d kept <-> In d (c_devices c) /\ ~ is_cap_device d)) /\
     Permutation.Permutation capl (capacitances sm) /\ Forall2 (represents c' CCapacitor "C") caps capl /\
     Permutation.Permutation resl (resistances sm) /\ Forall2 (represents c' CResistor "R") ress resl /\
     NoDup (map d_name caps) /\ NoDup (map d_name ress) }.
