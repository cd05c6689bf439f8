(** Specification for C55: where the shapes of a layer belong in the other PDK. *)
From Coq Require Import String ZArith Permutation.
From Verif Require Import PyBase PyLib CV_Model.
Local Open Scope string_scope.
Local Open Scope list_scope.

(** all shapes with these numbers, on however many layers *)
Definition shapes_at {shape} (l : layout shape) (p : pair) : list shape := flat_map (fun e => if eqb (fst e) p then snd e else []) l.
(** a layout as it is in a file: one layer for each pair of numbers *)
Definition in_file {shape} (l : layout shape) : Prop := NoDup (map fst l).
(** [f] is [l] written to a file and read back *)
Definition reread {shape} (l f : layout shape) : Prop := in_file f /\ forall p, Permutation (shapes_at f p) (shapes_at l p).

(** name n stands for the numbers p: the last layer of that name counts *)
Definition named (t : list layer) (n : string) (p : pair) : Prop :=
  exists a l b, t = a ++ l :: b /\ lpp l = n /\ l_pair l = p /\ ~ In n (map lpp b).
Definition known (t : list layer) (n : string) : Prop := In n (map lpp t).
(** the name table sends numbers q to numbers p *)
Definition sends (m : list (string * list string)) (src dest : list layer) (q p : pair) : Prop :=
  exists s ds d, In (s, ds) m /\ named src s q /\ In d ds /\ named dest d p.
(** where the shapes of q belong: what the table says, else the dummy layer *)
Definition belongs (m : list (string * list string)) (src dest : list layer) (q p : pair) : Prop :=
  sends m src dest q p \/ ((forall s ds, In (s, ds) m -> ~ named src s q) /\ p = (1000 + fst q, snd q)%Z).
(** the tables make sense *)
Record sensible (m : list (string * list string)) (src dest : list layer) : Prop := {
  one_entry : NoDup (map fst m);
  one_target : forall s ds, In (s, ds) m -> NoDup ds;
  some_target : forall s ds, In (s, ds) m -> ds <> [];
  src_known : forall s ds, In (s, ds) m -> known src s;
  dest_known : forall s ds d, In (s, ds) m -> In d ds -> known dest d;
  src_numbers : NoDup (map l_pair src);
  dest_numbers : NoDup (map l_pair dest) }.
(** the inverse of a name table *)
Definition inverse (m n : list (string * list string)) : Prop :=
  NoDup (map fst n) /\ (forall d ss, In (d, ss) n -> ss <> []) /\
  forall s d, (exists ds, In (s, ds) m /\ In d ds) <-> (exists ss, In (d, ss) n /\ In s ss).

Definition sky130A_names : list layer := nth 0 tech_layer_lists [].
Definition sg13g2_names : list layer := nth 1 tech_layer_lists [].
(** the layers of the two processes that a contact or via joins: below, cut, above (drawn layers, from the PDKs' documentation) *)
Definition sky130A_joins : list (pair * pair * pair) :=
  [ ((65, 20), (66, 44), (67, 20)); ((65, 44), (66, 44), (67, 20)); ((66, 20), (66, 44), (67, 20)); ((67, 20), (67, 44), (68, 20));
    ((68, 20), (68, 44), (69, 20)); ((69, 20), (69, 44), (70, 20)); ((70, 20), (70, 44), (71, 20)); ((71, 20), (71, 44), (72, 20)) ]%Z.
Definition sg13g2_joins : list (pair * pair * pair) :=
  [ ((1, 0), (6, 0), (8, 0)); ((5, 0), (6, 0), (8, 0)); ((8, 0), (19, 0), (10, 0)); ((10, 0), (29, 0), (30, 0)); ((30, 0), (49, 0), (50, 0));
    ((50, 0), (66, 0), (67, 0)); ((67, 0), (125, 0), (126, 0)); ((126, 0), (133, 0), (134, 0)) ]%Z.
