(** What a resistor network means, independently of how the tables are stored:
    a symmetric conductance between any two nodes, and Kirchhoff's current law. *)
From Verif Require Import PyBase RN_Model.
Set Implicit Arguments.
Local Open Scope Qc_scope.

(** conductance of the resistor between two nodes (0 = no resistor) *)
Definition cond_between (n : net) (a b : nid) : Qc :=
  match dget (s n) (a, b) with Some r => hget (heap n) r | None => 0 end.

(** the ids of all nodes of the network *)
Definition node_list (n : net) : list nid := dkeys (locations n).

(** net current flowing from node [a] into its resistors, for node voltages [v] *)
Definition current (n : net) (v : nid -> Qc) (a : nid) : Qc :=
  qsumf (fun b => cond_between n a b * (v a - v b)) (node_list n).

(** total conductance at a node *)
Definition total_cond (n : net) (a : nid) : Qc :=
  qsumf (fun b => cond_between n a b) (node_list n).

(** the unordered pairs {x,y} and {a,b} are equal *)
Definition same_pair (x y a b : nid) : bool :=
  (Nat.eqb x a && Nat.eqb y b) || (Nat.eqb x b && Nat.eqb y a).

(** [w] agrees with [v] on all nodes of network [n] *)
Definition agree_on (n : net) (v w : nid -> Qc) : Prop :=
  forall a, In a (node_list n) -> v a = w a.

(** at most one neighbour *)
Definition pendant (n : net) (i : nid) : Prop :=
  forall b c, cond_between n i b <> 0 -> cond_between n i c <> 0 -> b = c.

(** the conductances at the node do not cancel to (almost) nothing: the sum is above
    the code's cut-off 1e-10 in absolute value *)
Definition regular (n : net) (i : nid) : Prop :=
  Q2Qc (1 # 10000000000) < Qcabs' (total_cond n i) \/ pendant n i.

(** a network some sequence of admissible API calls can build *)
Definition reachable (n : net) : Prop := exists l, run_ok empty_net l /\ run empty_net l = Some n.

(** the calls add_cond(a, b, Conductance(g)) of a list, in order *)
Fixpoint add_all (n : net) (l : list (nid * nid * Qc)) : net :=
  match l with [] => n | (a, b, g) :: t => add_all (add_cond n a b g) t end.

(** total of the conductances a call list adds between x and y, in either direction *)
Definition added_between (l : list (nid * nid * Qc)) (x y : nid) : Qc :=
  qsumf (fun c => let '(a, b, g) := c in if same_pair x y a b then g else 0) l.

(** how often [x] occurs *)
Definition occurrences (x : nid) (l : list nid) : nat := count_occ Nat.eq_dec l x.

(** the resistors listed at a node *)
Definition star_of (n : net) (a : nid) : list (ref * nid) :=
  match dget (node_to_s n) a with Some l => l | None => [] end.
