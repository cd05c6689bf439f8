(** Which of two dielectrics around a metal the field solver should see. *)
From Coq Require Import String.
From Verif Require Import PyBase PyLib SW_Model SW_Spec TI_Model TI_Spec.

(** a layer of the stack that is one of the dielectrics, and is not filtered out *)
Definition used_dielectric (included : string -> bool) (l : slayer) : Prop :=
  match s_type l with SimpleDiel _ | ConformalDiel _ _ _ _ _ | SidewallDiel _ _ _ _ => included (s_name l) = true | _ => False end.
(** some used dielectric named [a] is listed before all those named [b]; names may occur more than once *)
Definition listed_before (stack : list slayer) (included : string -> bool) (a b : string) : Prop :=
  a <> b /\ exists x l y, stack = (x ++ l :: y)%list /\ s_name l = a /\ used_dielectric included l /\
    forall w, In w x -> used_dielectric included w -> s_name w <> b.
(** no field oxide has this name *)
Definition not_oxide (stack : list slayer) (m : string) : Prop :=
  forall l k, In l stack -> s_type l = FieldOxide k -> s_name l <> m.

(** the [i]-th dielectric around a metal: its name, its region and its height.  The region is that of the metal, widened by each
    dielectric up to this one; the height is the sum of theirs *)
Definition link_body {face} (sized : Z -> list face -> list face) (dbu : Qc) (shapes : list face) (thickness : Qc) (ls : list slayer) (i : nat)
    (name : string) (region : list face) (height : Qc) : Prop :=
  exists l, nth_error ls i = Some l /\ name = s_name l /\
    region = grown sized dbu shapes (firstn (S i) ls) /\ height = risen thickness (firstn (S i) ls).

(** the unit of height above [level], at point [p], is inside a body from [z] to [z + h] *)
Definition inside {face} (dbu : Qc) (region : list face) (z h : Qc) (level : Z) (p : face) : Prop :=
  In p region /\ (z2norm dbu z <= level)%Z /\ (level < z2norm dbu (z + h)%Qc)%Z.
