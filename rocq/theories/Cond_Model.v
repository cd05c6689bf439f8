(** Model of klayout_pex/rcx25/r/conductance.py: mutable Conductance objects in a heap. *)
From Verif Require Import PyBase RN_Model.
Set Implicit Arguments.
Local Open Scope Qc_scope.

(** the Conductance objects that exist; a reference is an index *)
Definition cheap := list Qc.

(** Conductance(cond), conductance.py L34-35 *)
Definition c_new (h : cheap) (g : Qc) : cheap * ref := (h ++ [g], List.length h).
(** copy, L43-44 *)
Definition c_copy (h : cheap) (a : ref) : cheap * ref := c_new h (hget h a).
(** add_parallel, L46-48: modifies and returns self *)
Definition c_add_parallel (h : cheap) (a b : ref) : cheap := hset h a (hget h a + hget h b).
(** parallel, L50-51: self.copy().add_parallel(other) *)
Definition c_parallel (h : cheap) (a b : ref) : cheap * ref :=
  let (h1, r) := c_copy h a in (c_add_parallel h1 r b, r).
(** abs(x) < 1e-10, L54 *)
Definition c_small (x : Qc) : bool := if Qclt_le_dec (Qcabs' x) threshold then true else false.
(** add_serial, L53-58; ZeroDivisionError ([None]) for opposite conductances *)
Definition c_add_serial (h : cheap) (a b : ref) : option cheap :=
  let x := hget h a in let y := hget h b in
  if c_small x || c_small y then Some (hset h a 0)
  else if Qc_eq_dec (1 / x + 1 / y) 0 then None
  else Some (hset h a (1 / (1 / x + 1 / y))).
(** serial, L60-61 *)
Definition c_serial (h : cheap) (a b : ref) : option (cheap * ref) :=
  let (h1, r) := c_copy h a in
  match c_add_serial h1 r b with Some h2 => Some (h2, r) | None => None end.
