(** Which net should be the reference of the capacitance matrix: C114. *)
From Coq Require Import ZArith String List.
From Verif Require Import PyBase PyLib NX_Model FX_Spec FE_Spec VX_Model VX_Spec FO_Model.
Import ListNotations.
Local Open Scope list_scope.

(** The net [s] has a body with some points, and those of the other nets start above its lower face *)
Definition lies_lowest (ls : list layer) (s : string) : Prop :=
  exists r a b, In (Body (Net s) r a b) ls /\ r <> [] /\ (a < b)%Z /\
    forall net r' a' b', In (Body (Net net) r' a' b') ls -> r' <> [] -> (a' < b')%Z -> (a < a')%Z \/ net = s /\ (a <= a')%Z.
(** a material, or a body of one *)
Definition no_net (l : layer) : Prop := match l with Body (Net _) _ _ _ => False | _ => True end.
(** a unit square in the box with the corners (x1, y1) and (x2, y2) *)
Definition in_box (b : (Z * Z) * (Z * Z)) (c : cell) : Prop :=
  let '((x1, y1), (x2, y2)) := b in (x1 <= fst c < x2)%Z /\ (y1 <= snd c < y2)%Z.
(** a sized region reaches no further than the margin *)
Definition grows (sized : Z -> list cell -> list cell) : Prop :=
  forall m r c, In c (sized m r) -> exists c', In c' r /\ (Z.abs (fst c - fst c') <= m)%Z /\ (Z.abs (snd c - snd c') <= m)%Z.
(** the metals are not below the height zero, and contacts not below their metal *)
Definition above_zero (m : metal) : Prop := (0 <= m_z m)%Z /\ (0 <= m_thickness m)%Z.

(** In circuit [top] of the netlist [ex], as compared to [nl], the net [s] has got the capacitance to ground of each other conductor: the sum of its row
    of the matrix, besides its coupling with conductor 0 *)
Definition grounded_to (s : string) (nl ex : netlist) (top : string) (blackbox : bool) (rs : printed) (names : list string) : Prop :=
  exists pre c post c' sub, circuits nl = pre ++ c :: post /\ c_name c = top /\ circuits ex = pre ++ c' :: post /\ In sub (c_nets c') /\ n_name sub = s /\
    forall j net, (0 < j)%nat -> nth_error names j = Some net ->
    exists x, In x (c_nets c') /\ n_name x = net /\ n_id x <> n_id sub /\
      between (c_devices c') (n_id sub) (n_id x) =
      (between (if blackbox then c_devices c else []) (n_id sub) (n_id x) + (mean_sum rs j - mean rs 0 j))%Qc.
