(** What the layer calls made on the builder describe, without reference to the sweep. *)
From Coq Require Import String.
From Verif Require Import PyBase PyLib SW_Model.

Section Spec.
Context {face : Type} `{EqDec face}.
Variable dbu : Qc.
Notation call := (@call face).

(** the call adds a layer under this name *)
Definition call_adds (c : call) (k : mkey) : option (list face * Z * Z) :=
  match c, k with
  | AddConductor n r z h, Net n' => if eqb n n' then Some (r, z2norm dbu z, z2norm dbu (z + h)%Qc) else None
  | AddDielectric m r z h, Mat m' => if eqb m m' then Some (r, z2norm dbu z, z2norm dbu (z + h)%Qc) else None
  | _, _ => None
  end.

(** [k] is present just above height [z] at point [p] *)
Definition present_above (cs : list call) (z : Z) (p : face) (k : mkey) : bool :=
  existsb (fun c => match call_adds c k with
                    | Some (r, z0, z1) => (z0 <=? z)%Z && (z <? z1)%Z && existsb (eqb p) r
                    | None => false
                    end) cs.
(** ... and just below *)
Definition present_below (cs : list call) (z : Z) (p : face) (k : mkey) : bool :=
  existsb (fun c => match call_adds c k with
                    | Some (r, z0, z1) => (z0 <? z)%Z && (z <=? z1)%Z && existsb (eqb p) r
                    | None => false
                    end) cs.

(** first occurrences, in order *)
Fixpoint firsts {A} `{EqDec A} (seen l : list A) : list A :=
  match l with
  | [] => []
  | x :: t => if existsb (eqb x) seen then firsts seen t else x :: firsts (x :: seen) t
  end.
(** priority: nets in the order of their first layer, then materials in the order declared *)
Definition nets_of (cs : list call) : list string :=
  firsts [] (flat_map (fun c => match c with AddConductor n _ _ _ => [n] | _ => [] end) cs).
Definition materials_of (cs : list call) : list string :=
  firsts [] (flat_map (fun c => match c with AddMaterial m => [m] | _ => [] end) cs).
Definition priority (cs : list call) : list mkey := map Net (nets_of cs) ++ map Mat (materials_of cs).

(** who owns the point just above / just below [z]; [None]: void *)
Definition owner_above (cs : list call) (z : Z) (p : face) : option mkey := find (present_above cs z p) (priority cs).
Definition owner_below (cs : list call) (z : Z) (p : face) : option mkey := find (present_below cs z p) (priority cs).

(** the heights at which something begins or ends *)
Definition is_level (cs : list call) (z : Z) : Prop :=
  exists c k r z0 z1, In c cs /\ call_adds c k = Some (r, z0, z1) /\ (z = z0 \/ z = z1).

(** ** horizontal surfaces at one height and point *)
Inductive hlabel :=
  | LDiel (below above : option string)
  | LBottom (net : string) (below : option string)
  | LTop (net : string) (above : option string).
Definition hlabel_at {piece} (z : Z) (p : face) (s : @surface face piece) : list hlabel :=
  match s with
  | HDiel z' b a r => if Z.eqb z z' && existsb (eqb p) r then [LDiel b a] else []
  | HCondIn z' n b r => if Z.eqb z z' && existsb (eqb p) r then [LBottom n b] else []
  | HCondOut z' n a r => if Z.eqb z z' && existsb (eqb p) r then [LTop n a] else []
  | _ => []
  end.
Definition horizontals {piece} (z : Z) (p : face) (l : list (@surface face piece)) : list hlabel := flat_map (hlabel_at z p) l.
Definition material_of (o : option mkey) : option string := match o with Some (Mat m) => Some m | _ => None end.
(** the surface between two owners; where two nets touch only the upper one gets a surface *)
Definition expected_h (below above : option mkey) : list hlabel :=
  if eqb below above then [] else
  match below, above with
  | _, Some (Net n) => [LBottom n (material_of below)]
  | Some (Net n), _ => [LTop n (material_of above)]
  | _, _ => [LDiel (material_of below) (material_of above)]
  end.

(** ** vertical surfaces between two heights at one boundary piece *)
Inductive vlabel :=
  | LVDiel (outside : option string) (inside : option string) (inside_right : bool)
  | LVCond (net : string) (outside : option string) (inside_right : bool).
Definition vlabel_at {piece} `{EqDec piece} (z zz : Z) (e : piece) (s : @surface face piece) : list vlabel :=
  match s with
  | VDiel z1 z2 o i (e', d) => if Z.eqb z z1 && Z.eqb zz z2 && eqb e e' then [LVDiel o i d] else []
  | VCond z1 z2 n o (e', d) => if Z.eqb z z1 && Z.eqb zz z2 && eqb e e' then [LVCond n o d] else []
  | _ => []
  end.
Definition verticals {piece} `{EqDec piece} (z zz : Z) (e : piece) (l : list (@surface face piece)) : list vlabel :=
  flat_map (vlabel_at z zz e) l.
(** what the owner on one side contributes *)
Definition expected_side (mats : list string) (inside outside : option mkey) (inside_right : bool) : list vlabel :=
  match inside with
  | None => []
  | Some (Net n) => [LVCond n (material_of outside) inside_right]
  | Some (Mat m) =>
      match outside with
      | None => [LVDiel None (Some m) inside_right]
      | Some (Net _) => []
      | Some (Mat m') => match find (fun x => eqb x m || eqb x m') mats with
                         | Some x => if eqb x m then [LVDiel (Some m') (Some m) inside_right] else []
                         | None => []
                         end
      end
  end.
Definition expected_v (mats : list string) (left right : option mkey) : list vlabel :=
  if eqb left right then [] else expected_side mats left right false ++ expected_side mats right left true.
End Spec.
