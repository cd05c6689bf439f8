(** What the tables, the stack lookup and the FasterCap input should be, without the model's functions. *)
From Coq Require Import String.
From Verif Require Import PyBase PyLib SW_Model TI_Model.

(** the last element with the property *)
Definition is_last {A} (P : A -> Prop) (l : list A) (x : A) : Prop :=
  exists a b, l = (a ++ x :: b)%list /\ P x /\ forall y, In y b -> ~ P y.
(** d[k1][k2], [None] if one of the keys is missing *)
Definition at2 {V} (d : dict string (dict string V)) (k1 k2 : string) : option V :=
  match dget d k1 with Some row => dget row k2 | None => None end.

Definition overlap_entry (subs : list subcap) (ovs : list ovcap) (top bot : string) (v : ovcap) : Prop :=
  is_last (fun o => oc_top o = top /\ oc_bottom o = bot) ovs v \/
  (forall o, In o ovs -> ~ (oc_top o = top /\ oc_bottom o = bot)) /\ bot = "VSUBS"%string /\
  exists s, is_last (fun s => sc_layer s = top) subs s /\ v = OvCap top "VSUBS" (sc_area s).
Definition side_overlap_entry (subs : list subcap) (sos : list socap) (i o : string) (v : socap) : Prop :=
  is_last (fun x => so_in x = i /\ so_out x = o) sos v \/
  (forall x, In x sos -> ~ (so_in x = i /\ so_out x = o)) /\ o = "VSUBS"%string /\
  exists s, is_last (fun s => sc_layer s = i) subs s /\ v = SoCap i "VSUBS" (sc_perimeter s).

(** ** sidewall chains *)
Definition reference_of (l : slayer) : option string :=
  match s_type l with ConformalDiel _ _ _ _ r | SidewallDiel _ _ _ r => Some r | _ => None end.
(** [l] is a dielectric of the stack that is not filtered out and refers to [name] *)
Definition refers (stack : list slayer) (included : string -> bool) (name : string) (l : slayer) : Prop :=
  In l stack /\ included (s_name l) = true /\ reference_of l = Some name.
(** the dielectrics reached from [name], each the one that refers to the one before, up to the end *)
Inductive chain (stack : list slayer) (included : string -> bool) : string -> list slayer -> Prop :=
  | chain_end n : (forall l, ~ refers stack included n l) -> chain stack included n []
  | chain_step n l ls : refers stack included n l -> chain stack included (s_name l) ls -> chain stack included n (l :: ls).
(** the references are acyclic: names can be numbered so that a dielectric comes after what it refers to *)
Definition acyclic (stack : list slayer) (included : string -> bool) : Prop :=
  exists rank : string -> nat, forall n l, refers stack included n l -> (rank n < rank (s_name l))%nat.
(** a reference cycle through [name] *)
Inductive reaches (stack : list slayer) (included : string -> bool) : string -> string -> Prop :=
  | reaches_one n l : refers stack included n l -> reaches stack included n (s_name l)
  | reaches_more n l m : refers stack included n l -> reaches stack included (s_name l) m -> reaches stack included n m.

(** no thickness or width of a dielectric is negative *)
Definition nonneg_layer (l : slayer) : Prop :=
  match s_type l with
  | ConformalDiel _ over nm side _ => (0 <= over /\ 0 <= nm /\ 0 <= side)%Qc
  | SidewallDiel _ above width _ => (0 <= above /\ 0 <= width)%Qc
  | Metal _ t _ => (0 <= t)%Qc
  | _ => True
  end.

(** one added dielectric covers point [p] at height [z] *)
Definition covers {face} (p : face) (z : Qc) (c : @call face) : Prop :=
  match c with AddDielectric _ r z0 h => In p r /\ (z0 <= z)%Qc /\ (z < z0 + h)%Qc | _ => False end.

(** ** what a chain of dielectrics around one metal should look like *)
Section Chain.
Context {face : Type} `{EqDec face}.
Variables (sized : Z -> list face -> list face) (dbu : Qc) (bbox : list face).
(** how far a dielectric grows sideways, how much higher it is than the one it covers, and how
    thick it is where there is no metal *)
Definition width_of (l : slayer) : Qc :=
  match s_type l with SidewallDiel _ _ w _ => w | ConformalDiel _ _ _ side _ => side | _ => 0%Qc end.
Definition rise_of (metal_thickness : Qc) (l : slayer) : Qc :=
  match s_type l with
  | SidewallDiel _ above _ _ => if Qc_eq_dec above 0%Qc then metal_thickness else above
  | ConformalDiel _ over _ _ _ => (metal_thickness + over)%Qc
  | _ => 0%Qc
  end.
Definition flat_part (l : slayer) : option Qc :=
  match s_type l with ConformalDiel _ _ nm _ _ => if Qclt_le_dec 0 nm then Some nm else None | _ => None end.
Definition grown (shapes : list face) (ls : list slayer) : list face :=
  fold_left (fun r l => sized (Qround.Qfloor (this (width_of l / dbu)%Qc)) r) ls shapes.
Definition risen (t : Qc) (ls : list slayer) : Qc := qsumf (rise_of t) ls.
(** the dielectrics to add for the [i]-th element of the chain [ls] around [shapes] *)
Definition link_calls (shapes : list face) (z t : Qc) (ls : list slayer) (i : nat) : list (@call face) :=
  match nth_error ls i with
  | None => []
  | Some l =>
      let inner := firstn (S i) ls in
      AddDielectric (s_name l) (grown shapes inner) z (risen t inner) ::
      match flat_part l with
      | Some nm => [AddDielectric (s_name l) (filter (fun x => negb (existsb (eqb x) (grown shapes inner))) bbox) z nm]
      | None => []
      end
  end.
End Chain.

(** ** the conductors of one net *)
Inductive net_solid {face} (stack : list slayer) (shapes : string -> option (list face)) : list face -> Qc -> Qc -> Prop :=
  | solid_metal l z t c r : In l stack -> s_type l = Metal z t c -> shapes (s_name l) = Some r -> net_solid stack shapes r z t
  | solid_via l z t c r : In l stack -> s_type l = Metal z t (Some c) -> shapes (c_name c) = Some r ->
      net_solid stack shapes r (z + t)%Qc (c_thickness c)
  | solid_diffusion l c r : In l stack -> s_type l = Diffusion c -> shapes (s_name l) = Some r -> net_solid stack shapes r 0%Qc (Q2Qc (1 # 10))
  | solid_contact l c r : In l stack -> s_type l = Diffusion c -> shapes (c_name c) = Some r -> net_solid stack shapes r 0%Qc (c_thickness c).
