(** What a network of resistors does, in terms of the power that given voltages take: C95. *)
From Coq Require Import ZArith Reals List.
From Flocq Require Import IEEE754.BinarySingleNaN.
From Verif Require Import PyBase FP_Model FP_Spec FC_Spec RN_Model RF_Model.
Import ListNotations.
Local Close Scope Qc_scope.
Local Open Scope R_scope.

(** the ids of all nodes *)
Definition f_nodes (n : fnet) : list nid := dkeys (locations (tables n)).
(** the conductance between two nodes *)
Definition f_cond (n : fnet) (a b : nid) : float := match dget (s (tables n)) (a, b) with Some r => fget (objects n) r | None => of_int 0 end.
Definition g (n : fnet) (a b : nid) : R := val (f_cond n a b).

Definition rsum {A} (f : A -> R) (l : list A) : R := fold_right (fun x acc => f x + acc) 0 l.
(** The power that the network takes if its nodes have the voltages v.  Each resistor is counted from both ends. *)
Definition power (n : fnet) (v : nid -> R) : R :=
  / 2 * rsum (fun a => rsum (fun b => g n a b * ((v a - v b) * (v a - v b))) (f_nodes n)) (f_nodes n).
(** the sum of all conductances *)
Definition all_cond (n : fnet) : R := / 2 * rsum (fun a => rsum (fun b => g n a b) (f_nodes n)) (f_nodes n).
Definition between (n : fnet) (v : nid -> R) (lo hi : R) : Prop := forall a, In a (f_nodes n) -> lo <= v a <= hi.
Definition agrees (n : fnet) (v w : nid -> R) : Prop := forall a, In a (f_nodes n) -> v a = w a.

(** a call with existing nodes and a conductance that is not negative *)
Definition call_ok (n : fnet) (c : call) : Prop :=
  match c with
  | CNode _ | CPrecious _ => True
  | CCond a b x => a <> b /\ In a (f_nodes n) /\ In b (f_nodes n) /\ is_finite x = true /\ 0 <= val x
  end.
Fixpoint calls_ok (n : fnet) (l : list call) : Prop :=
  match l with [] => True | c :: t => call_ok n c /\ calls_ok (f_call n c) t end.
(** the conductances of the calls together *)
Definition added (l : list call) : R := rsum (fun c => match c with CCond _ _ x => val x | _ => 0 end) l.

(** Rounding may change all powers by this factor, if there are N nodes; less than 1.0003 up to a million nodes *)
Definition factor (N : nat) : R := (1 + 2 * half_ulp) ^ (N * (N + 3)).
(** The power that the resistors of the calls take, without any rounding *)
Definition drawn (l : list call) (v : nid -> R) : R := rsum (fun c => match c with CCond a b x => val x * ((v a - v b) * (v a - v b)) | _ => 0 end) l.
(** limits far beyond any layout *)
Definition moderate (l : list call) : Prop := added l <= 10 ^ 70 /\ INR (List.length l) <= 10 ^ 12 /\ INR (List.length (f_nodes (f_build l))) <= 10 ^ 6.
