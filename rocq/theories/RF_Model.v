(** The resistor network of klayout_pex/rcx25/r/resistor_network.py with floats for the conductances.
    The tables (nodes, locations, s, node_to_s, ...) are those of RN_Model, which do not depend on the numbers.  There, a Conductance object is an
    index; here the numbers of the objects are a list of their own, and the numbers in the tables are all 0 and never used.
    Floats as in FP_Model.  An exception is [None]. *)
From Coq Require Import ZArith List.
From Flocq Require Import Core.Core IEEE754.BinarySingleNaN.
From Verif Require Import PyBase FP_Model FC_Model RN_Model.
Import ListNotations.
Local Close Scope Qc_scope.

(** ResistorNetwork attributes, resistor_network.py L60-67, and the cond of every Conductance object, conductance.py L34-35 *)
Record fnet := FNet { tables : net; objects : list float }.
(** ResistorNetwork(), resistor_network.py L60-67 *)
Definition fempty : fnet := FNet empty_net [].
(** cond.cond read and written, conductance.py L34-35, L47 *)
Definition fget (h : list float) (r : ref) : float := nth r h (of_int 0).
Fixpoint fset (h : list float) (r : ref) (x : float) : list float :=
  match h, r with
  | [], _ => []
  | _ :: t, O => x :: t
  | y :: t, S r' => y :: fset t r' x
  end.

(** node_id and mark_precious, resistor_network.py L184-195, L209-215 *)
Definition f_node_id (n : fnet) (p : RN_Model.point) : fnet * nid := let '(t, i) := node_id (tables n) p in (FNet t (objects n), i).
Definition f_mark_precious (n : fnet) (i : nid) : fnet := FNet (mark_precious (tables n) i) (objects n).
(** add_cond(a, b, Conductance(g)), resistor_network.py L226-241; add_parallel, conductance.py L46-48 *)
Definition f_add_cond (n : fnet) (a b : nid) (g : float) : fnet :=
  FNet (add_cond (tables n) a b (Q2Qc 0))
       (match dget (s (tables n)) (a, b) with
        | Some r0 => fset (objects n ++ [g]) r0 (fadd (fget (objects n) r0) g)
        | None => objects n ++ [g]
        end).

(** s_sum, resistor_network.py L254-256 *)
Definition f_star_sum (n : fnet) (star : list (ref * nid)) : float :=
  fold_left (fun acc e => fadd acc (fget (objects n) (fst e))) star (of_int 0).
(** abs(s_sum) > 1e-10, resistor_network.py L257 *)
Definition f_significant (x : float) : bool := flt (lit 1 10000000000) (Babs x).
(** resistor_network.py L259-263 *)
Fixpoint f_mesh_inner (n : fnet) (sum : float) (e1 : ref * nid) (rest : list (ref * nid)) : fnet :=
  match rest with
  | [] => n
  | e2 :: t =>
      let c := fdiv (fmul (fget (objects n) (fst e1)) (fget (objects n) (fst e2))) sum in
      f_mesh_inner (f_add_cond n (snd e1) (snd e2) c) sum e1 t
  end.
(** resistor_network.py L258-263 *)
Fixpoint f_mesh (n : fnet) (sum : float) (star : list (ref * nid)) : fnet :=
  match star with
  | [] => n
  | e1 :: t => f_mesh (f_mesh_inner n sum e1 t) sum t
  end.
(** eliminate_node, resistor_network.py L243-264 *)
Definition f_eliminate_node (n : fnet) (i : nid) : option fnet :=
  match dget (node_to_s (tables n)) i with
  | None => Some n
  | Some star =>
      let sum := f_star_sum n star in
      let n1 := if f_significant sum then f_mesh n sum star else n in
      match remove_node (tables n1) i with Some t => Some (FNet t (objects n1)) | None => None end
  end.
(** resistor_network.py L331-332 *)
Fixpoint f_eliminate_list (n : fnet) (l : list nid) : option fnet :=
  match l with
  | [] => Some n
  | i :: t => match f_eliminate_node n i with Some n1 => f_eliminate_list n1 t | None => None end
  end.
(** eliminate_all, resistor_network.py L301-335, as in RN_Model *)
Fixpoint f_elim_loop (fuel : nat) (n : fnet) (nmax : nat) : outcome fnet :=
  match fuel with
  | O => OutOfFuel
  | S f =>
      let (te, nx) := scan (tables n) nmax in
      match te with
      | [] => match nx with None => Done n | Some m => f_elim_loop f n m end
      | _ => match f_eliminate_list n te with Some n1 => f_elim_loop f n1 nmax | None => Raised end
      end
  end.
Definition f_eliminate_all (n : fnet) : outcome fnet := f_elim_loop (elim_fuel (tables n)) n 3.

(** Calls that build a network, with the ids the caller passes: node_id, mark_precious, add_cond, resistor_network.py L184-195, L209-215, L226-241 *)
Inductive call := CNode (p : RN_Model.point) | CPrecious (i : nid) | CCond (a b : nid) (g : float).
Definition f_call (n : fnet) (c : call) : fnet :=
  match c with CNode p => fst (f_node_id n p) | CPrecious i => f_mark_precious n i | CCond a b g => f_add_cond n a b g end.
Definition f_build (l : list call) : fnet := fold_left f_call l fempty.
