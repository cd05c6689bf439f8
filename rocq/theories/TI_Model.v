(** Model of klayout_pex/tech_info.py (layer stack and parasitic tables) and of
    klayout_pex/fastercap/fastercap_input_builder.py (FasterCapInputBuilder.build L101-340).

    The technology protobuf is a record; fields the modelled functions do not read are left out.
    Numbers are exact rationals.  A kdb.Region is a list of the faces into which the layout
    plane is divided, as in SW_Model; the shapes of nets and layers, the enlarged bounding box
    and sizing come from outside.  Only the sequence of calls on the FasterCapModelBuilder is
    kept; debug/info/warning calls are left out. *)
From Coq Require Import String QArith.Qround.
From Verif Require Import PyBase PyLib SW_Model.
Local Open Scope string_scope.
Local Open Scope list_scope.

(** ** technology *)
(** ProcessStackInfo.Contact *)
Record contact := Contact { c_name : string; c_thickness : Qc }.
(** ProcessStackInfo.LayerInfo.layer_type with the layer specific fields *)
Inductive ltype :=
  | Substrate (height thickness : Qc)
  | NWell (contact_above : contact)
  | Diffusion (contact_above : contact)
  | FieldOxide (k : Qc)
  | SimpleDiel (k : Qc)
  | ConformalDiel (k over_metal no_metal side : Qc) (reference : string)
  | SidewallDiel (k height_above width_outside : Qc) (reference : string)
  | Metal (z thickness : Qc) (contact_above : option contact).
Record slayer := SLayer { s_name : string; s_type : ltype }.

(** CapacitanceInfo entries *)
Record subcap := SubCap { sc_layer : string; sc_area : Qc; sc_perimeter : Qc }.
Record ovcap := OvCap { oc_top : string; oc_bottom : string; oc_value : Qc }.
Record socap := SoCap { so_in : string; so_out : string; so_value : Qc }.

(** process_metal_layers, tech_info.py L144-149 *)
Definition is_metal (l : slayer) : bool := match s_type l with Metal _ _ _ => true | _ => false end.
Definition is_simple (l : slayer) : bool := match s_type l with SimpleDiel _ => true | _ => false end.
(** lyr.metal_layer.z (tech_info.py L212): the protobuf default for other layer types is 0 *)
Definition metal_z (l : slayer) : Qc := match s_type l with Metal z _ _ => z | _ => 0%Qc end.

(** ** capacitance tables *)
(** {key(x): x for x in l}: a later entry replaces the value, the position stays *)
Definition by_key {V} (key : V -> string) (l : list V) : dict string V :=
  fold_left (fun d x => dset d (key x) x) l [].
(** substrate_cap_by_layer_name, tech_info.py L320-322 *)
Definition substrate_caps (l : list subcap) : dict string subcap := by_key sc_layer l.
(** internal_substrate_layer_name, tech_info.py L364-366 *)
Definition VSUBS : string := "VSUBS".
Definition table V := dict string (dict string V).
(** d[k1][k2] = v with the missing outer key created, tech_info.py L354-357 *)
Definition put_or_create {V} (d : table V) (k1 k2 : string) (v : V) : table V :=
  match dget d k1 with
  | Some row => dset d k1 (dset row k2 v)
  | None => dset d k1 [(k2, v)]
  end.
(** d[k1][k2] = v; [None] is a KeyError, tech_info.py L398 *)
Definition put {V} (d : option (table V)) (k1 k2 : string) (v : V) : option (table V) :=
  match d with
  | None => None
  | Some d => match dget d k1 with Some row => Some (dset d k1 (dset row k2 v)) | None => None end
  end.
(** the nested comprehension d2, tech_info.py L344-350 and L388-394 *)
Definition nested {V} (k1 k2 : V -> string) (l : list V) : table V :=
  fold_left (fun d x => dset d (k1 x) (by_key k2 (filter (fun y => eqb (k1 y) (k1 x)) l))) l [].
(** overlap_cap_by_layer_names, tech_info.py L324-358 *)
Definition overlap_table (subs : list subcap) (ovs : list ovcap) : table ovcap :=
  let d := map (fun e : string * subcap => (fst e, [(VSUBS, OvCap (sc_layer (snd e)) VSUBS (sc_area (snd e)))])) (substrate_caps subs) in
  fold_left (fun d e => fold_left (fun d e2 => put_or_create d (fst e) (fst e2) (snd e2)) (snd e) d) (nested oc_top oc_bottom ovs) d.
(** side_overlap_cap_by_layer_names, tech_info.py L368-400; [None] is a KeyError *)
Definition side_overlap_table (subs : list subcap) (sos : list socap) : option (table socap) :=
  let d := map (fun e : string * subcap => (fst e, [(VSUBS, SoCap (sc_layer (snd e)) VSUBS (sc_perimeter (snd e)))])) (substrate_caps subs) in
  fold_left (fun d e => fold_left (fun d e2 => put d (fst e) (fst e2) (snd e2)) (snd e) d) (nested so_in so_out sos) (Some d).

(** ** layer stack *)
Section Stack.
Variables (stack : list slayer) (included : string -> bool).

(** filtered_dielectric_layers, tech_info.py L151-161 *)
Definition is_dielectric (l : slayer) : bool :=
  match s_type l with SimpleDiel _ | ConformalDiel _ _ _ _ _ | SidewallDiel _ _ _ _ => true | _ => false end.
Definition filtered_dielectrics : list slayer := filter (fun l => is_dielectric l && included (s_name l)) stack.
(** dielectric_by_name, tech_info.py L163-174: only the keys matter here *)
Definition dielectric_names : list string := dkeys (by_key s_name filtered_dielectrics).

(** sidewall_dielectric_layer, tech_info.py L176-193 *)
Definition references (name : string) (l : slayer) : bool :=
  match s_type l with
  | SidewallDiel _ _ _ r | ConformalDiel _ _ _ _ r => eqb r name
  | _ => false
  end.
Inductive lookup := NotFound | Found (l : slayer) | Ambiguous.
Definition sidewall_lookup (name : string) : lookup :=
  match filter (references name) filtered_dielectrics with
  | [] => NotFound
  | [l] => Found l
  | _ => Ambiguous
  end.

(** simple_dielectric_above_metal, tech_info.py L195-213 *)
Fixpoint sdam (name : string) (found diel : option slayer) (ls : list slayer) : option slayer * Qc :=
  match ls with
  | [] => (diel, Q2Qc 5)
  | l :: r =>
      if eqb (s_name l) name then sdam name (Some l) diel r
      else match found with
           | None => sdam name found diel r
           | Some f =>
               if match diel with None => is_simple l | Some _ => false end
               then if included (s_name l)
                    then sdam name found (Some l) r   (* a simple dielectric is not a metal *)
                    else (None, 0%Qc)
               else if is_metal l then (diel, (metal_z l - metal_z f)%Qc)
               else sdam name found diel r
           end
  end.
Definition simple_dielectric_above_metal (name : string) : option slayer * Qc := sdam name None None stack.
End Stack.

(** ** FasterCapInputBuilder.build *)
Section Build.
Context {face : Type} `{EqDec face}.
Variables (stack : list slayer) (included : string -> bool) (dbu : Qc).
(** each net of the top circuit: expanded name and shapes_of_net *)
Variable nets : list (string * (string -> option (list face))).
Variable layer_shapes : string -> option (list face).
Variables (bbox : list face) (sized : Z -> list face -> list face).
(** whether `if region:` holds for an empty kdb.Region; this depends on the KLayout Python
    binding, which is not part of the repository, so both answers are covered *)
Variable empty_truthy : bool.
Definition truthy (r : list face) : bool := match r with [] => empty_truthy | _ => true end.

Definition minus (a b : list face) : list face := filter (fun x => negb (existsb (eqb x) b)) a.
Definition floor_div (x : Qc) : Z := Qfloor (this (x / dbu)%Qc).
Definition diel (m : string) r z h : @call face := AddDielectric m r z h.

(** fastercap_input_builder.py L140-197: the conductors of one net *)
Definition cond_call (name : string) (shapes : option (list face)) (z h : Qc) : list (@call face) :=
  match shapes with Some (x :: r) => [AddConductor name (x :: r) z h] | _ => [] end.
Definition metal_calls (n : string * (string -> option (list face))) (l : slayer) : list (@call face) :=
  match s_type l with
  | Metal z t c =>
      cond_call (fst n) (snd n (s_name l)) z t ++
      match c with Some c => cond_call (fst n) (snd n (c_name c)) (z + t)%Qc (c_thickness c) | None => [] end
  | _ => []
  end.
Definition diffusion_calls (n : string * (string -> option (list face))) (l : slayer) : list (@call face) :=
  match s_type l with
  | Diffusion c =>
      cond_call (fst n) (snd n (s_name l)) 0%Qc (Q2Qc (1 # 10)) ++ cond_call (fst n) (snd n (c_name c)) 0%Qc (c_thickness c)
  | _ => []
  end.
Definition net_calls (n : string * (string -> option (list face))) : list (@call face) :=
  flat_map (metal_calls n) stack ++ flat_map (diffusion_calls n) stack.
Definition diffusion_regions : list (list face) :=
  flat_map (fun n : string * (string -> option (list face)) => flat_map (fun l => match s_type l with
    | Diffusion _ => match snd n (s_name l) with Some (x :: r) => [x :: r] | _ => [] end
    | _ => [] end) stack) nets.
(** L199-213: the block of the enlarged bounding box without the sized diffusion regions *)
Definition substrate_region : list face :=
  fold_left (fun r d => minus r (sized (floor_div 1%Qc) d)) diffusion_regions bbox.

(** L257-305: the chain of sidewall dielectrics of one metal *)
Inductive sres :=
  | SDone (cs : list (@call face)) (region : list face) (height : Qc) (no_metal : option (list face * Qc))
  | SRaised | SFuel.
Fixpoint sidewalls (fuel : nat) (z thickness : Qc) (name : string) (region : list face) (height : Qc)
    (no_metal : option (list face * Qc)) (acc : list (@call face)) : sres :=
  match fuel with
  | O => SFuel
  | S fuel' =>
      match sidewall_lookup stack included name with
      | NotFound => SDone acc region height no_metal
      | Ambiguous => SRaised
      | Found l =>
          match s_type l with
          | SidewallDiel _ above width _ =>
              let region := sized (floor_div width) region in
              let height := (height + (if qeqb above 0 then thickness else above))%Qc in
              sidewalls fuel' z thickness (s_name l) region height no_metal (acc ++ [diel (s_name l) region z height])
          | ConformalDiel _ over nm side _ =>
              let region := sized (floor_div side) region in
              let height := (height + (thickness + over))%Qc in
              let acc := acc ++ [diel (s_name l) region z height] in
              if qltb 0 nm
              then sidewalls fuel' z thickness (s_name l) region height (Some (minus bbox region, nm))
                     (acc ++ [diel (s_name l) (minus bbox region) z nm])
              else sidewalls fuel' z thickness (s_name l) region height no_metal acc
          | _ => sidewalls fuel' z thickness (s_name l) region height no_metal acc
          end
      end
  end.
(** L310-337: the simple dielectric above one metal; the assert of L316 gives [None] *)
Definition simple_calls (l : slayer) (sw : option (list face * Qc)) (no_metal : option (list face * Qc)) : option (list (@call face)) :=
  let (d, h) := simple_dielectric_above_metal stack included (s_name l) in
  match d with
  | None => Some []
  | Some d =>
      let z := metal_z l in
      let above :=
        match sw with
        | Some (sr, sh) => if negb (truthy sr) then Some (bbox, []) else if qleb 0 sh then Some (minus bbox sr, [diel (s_name d) sr (z + sh)%Qc (h - sh)%Qc]) else None
        | None => Some (bbox, [])
        end in
      match above with
      | None => None
      | Some (region, cs) =>
          Some (cs ++ match no_metal with
                      | Some (nr, nh) => if truthy nr then [diel (s_name d) region (z + nh)%Qc (h - nh)%Qc]
                                         else [diel (s_name d) region z h]
                      | None => [diel (s_name d) region z h]
                      end)
      end
  end.
Inductive bres := BCalls (cs : list (@call face)) | BRaised | BFuel.
(** L240-337: all dielectrics of one metal layer *)
Definition metal_dielectrics (fuel : nat) (l : slayer) : bres :=
  match s_type l with
  | Metal z t _ =>
      match layer_shapes (s_name l) with
      | Some shapes =>
          if negb (truthy shapes)
          then match simple_calls l None None with Some cs2 => BCalls cs2 | None => BRaised end
          else
          match sidewalls fuel z t (s_name l) shapes 0%Qc None [] with
          | SDone cs region height nm =>
              match simple_calls l (Some (region, height)) nm with Some cs2 => BCalls (cs ++ cs2) | None => BRaised end
          | SRaised => BRaised
          | SFuel => BFuel
          end
      | None => match simple_calls l None None with Some cs2 => BCalls cs2 | None => BRaised end
      end
  | _ => BCalls []
  end.
Fixpoint all_dielectrics (fuel : nat) (ls : list slayer) : bres :=
  match ls with
  | [] => BCalls []
  | l :: r => match metal_dielectrics fuel l with
              | BCalls a => match all_dielectrics fuel r with BCalls b => BCalls (a ++ b) | x => x end
              | x => x
              end
  end.
(** build, L101-340: the calls on the model builder.  The substrate, field oxide and gate poly
    layers are the first of their kind ([0] raises IndexError if there is none). *)
Definition build_calls (fuel : nat) : bres :=
  match find (fun l => match s_type l with FieldOxide _ => true | _ => false end) stack,
        find (fun l => match s_type l with Substrate _ _ => true | _ => false end) stack,
        find is_metal stack with
  | Some fox, Some (SLayer _ (Substrate sh st)), Some gate =>
      match all_dielectrics fuel stack with
      | BCalls ds =>
          BCalls (AddMaterial (s_name fox) :: map AddMaterial (dielectric_names stack included) ++
                  flat_map net_calls nets ++
                  [AddConductor VSUBS substrate_region (0 - sh - st)%Qc st] ++
                  [diel (s_name fox) bbox 0%Qc (metal_z gate - 0)%Qc] ++ ds)
      | x => x
      end
  | _, _, _ => BRaised
  end.
End Build.
