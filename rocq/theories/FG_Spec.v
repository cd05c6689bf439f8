(** What the combined dielectric surfaces and the written FasterCap files should be. *)
From Coq Require Import String Permutation.
From Verif Require Import PyBase PyLib NX_Model FG_Model.
Local Open Scope string_scope.
Local Open Scope list_scope.

Section Spec.
Context {pt : Type}.
Notation tri := (@tri pt).

(** the triangles stored under a pair of materials *)
Definition under (d : dict hkey (list tri)) (k : hkey) : list tri :=
  match dget d k with Some l => l | None => [] end.
(** the pair seen from the other side *)
Definition flip (k : hkey) : hkey := let '(a, b) := k in (b, a).
Definition turned (t : tri) : tri := let '(a, b, c) := t in (c, b, a).

(** [r] keeps every surface of [d] exactly once, one orientation per pair of materials *)
Definition combined (d r : dict hkey (list tri)) : Prop :=
  NoDup (dkeys r) /\
  (forall k, In k (dkeys r) -> In k (dkeys d)) /\
  (forall k, In k (dkeys d) -> In k (dkeys r) \/ In (flip k) (dkeys r)) /\
  (forall k, In k (dkeys r) -> In (flip k) (dkeys r) -> k = flip k) /\
  (forall k, In k (dkeys r) -> k <> flip k -> Permutation (under r k) (under d k ++ map turned (under d (flip k)))) /\
  (forall k, In k (dkeys r) -> k = flip k -> under r k = map turned (under d k)).

(** ** files *)
Section Files.
Variables (k_void : Qc) (materials : dict string Qc).
(** permittivity on one side of a surface *)
Inductive permittivity : option string -> Qc -> Prop :=
  | P_void : permittivity None k_void
  | P_unnamed : permittivity (Some "") k_void
  | P_mat m k : m <> "" -> In (m, k) materials -> permittivity (Some m) k.

Notation entry := (@geo pt * lline)%type.
(** a file that holds a dielectric surface and its list line *)
Definition diel_file (e : entry) (s : hkey * list tri) : Prop :=
  g_tris (fst e) = snd s /\ g_cond (fst e) = None /\ g_rename (fst e) = false /\
  exists ko ki, snd e = DL (g_name (fst e)) ko ki /\ permittivity (fst (fst s)) ko /\ permittivity (snd (fst s)) ki.
(** a file that holds a conductor surface and its list line *)
Definition cond_file (e : entry) (s : (string * option string) * list tri) : Prop :=
  g_tris (fst e) = snd s /\ g_cond (fst e) = Some (fst (fst s)) /\
  exists ko plus, snd e = CL (g_name (fst e)) ko plus /\ permittivity (snd (fst s)) ko.
Definition plus_of (e : entry) : bool := match snd e with CL _ _ p => p | DL _ _ _ => false end.
Definition has_tris {K} (s : K * list tri) : bool := match snd s with [] => false | _ => true end.
End Files.
End Spec.
