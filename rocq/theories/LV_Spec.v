(** What the extraction context should contain, without the model's functions. *)
From Coq Require Import String ZArith.
From Verif Require Import PyBase PyLib LV_Model.
Local Open Scope string_scope.
Local Open Scope list_scope.

(** the last element with the property *)
Definition last_such {A} (P : A -> bool) (l : list A) : option A := find P (rev l).
(** each element once, in the order of first occurrence *)
Fixpoint distinct {A} `{EqDec A} (l : list A) : list A :=
  match l with [] => [] | x :: r => x :: filter (fun y => negb (eqb y x)) (distinct r) end.

Section Spec.
Variables (t : tech) (blackbox : bool) (db : lvsdb).
(** the technology's computed layer with a name; the canonical name of a GDS pair *)
Definition info_of (name : string) : option clayer := last_such (fun c => eqb (cl_name c) name) (computed t).
Definition canon_of (p : gds) : option string := option_map cl_orig (last_such (fun c => eqb (cl_pair c) p) (computed t)).
(** layers with passive devices, which are left out when devices are black boxes *)
Definition hidden (c : clayer) : bool := blackbox && match cl_kind c with KResistor | KCapacitor => true | _ => false end.
Definition has_shapes (l : lvslayer) : bool := match db_shapes db (lv_index l) with [] => false | _ => true end.
(** the LVS layers that belong to GDS pair [p] *)
Definition belongs (p : gds) (l : lvslayer) : bool :=
  has_shapes l && match info_of (lv_name l) with Some c => negb (hidden c) && eqb (cl_pair c) p | None => false end.
Definition sources (p : gds) : list xlayer :=
  map (fun e : nat * lvslayer => XLayer (fst e) (lv_name (snd e)) p (db_shapes db (lv_index (snd e))))
      (filter (fun e => belongs p (snd e)) (enumerate (db_layers db))).
(** the LVS layers the technology does not know *)
Definition unknown (l : lvslayer) : bool :=
  has_shapes l && match info_of (lv_name l), lv_info l with None, Some _ => true | _, _ => false end.
Definition unknown_layers : list xlayer :=
  map (fun e : nat * lvslayer => XLayer (fst e) (lv_name (snd e)) (1000 + Z.of_nat (fst e), 20)%Z (db_shapes db (lv_index (snd e))))
      (filter (fun e => unknown (snd e)) (enumerate (db_layers db))).
(** the GDS pairs in use, in LVS order *)
Definition used_pairs : list gds :=
  distinct (flat_map (fun l => match info_of (lv_name l) with
                               | Some c => if has_shapes l && negb (hidden c) then [cl_pair c] else []
                               | None => [] end) (db_layers db)).
(** the shapes of all LVS layers of a GDS pair *)
Definition all_shapes (p : gds) : list shape :=
  flat_map (fun l => if belongs p l then db_shapes db (lv_index l) else []) (db_layers db).
End Spec.

(** KLayout's layer indexes are distinct *)
Definition db_wf (db : lvsdb) : Prop := NoDup (map lv_index (db_layers db)).

(** ** pins *)
Section Pins.
Variables (t : tech) (blackbox : bool) (db : lvsdb) (labels : gds -> list (string * point)) (inside : poly -> point -> bool) (lid : gds -> nat).
(** the layer with a drawing pair *)
Definition layer_of (p : gds) : option tlayer := last_such (fun l => eqb (tl_drw l) p) (layers t).
(** the drawing pair of a canonical layer name *)
Definition drawn (name : string) : option gds := option_map tl_drw (last_such (fun l => eqb (tl_name l) name) (layers t)).
(** the pin that a text makes on extracted pair [q]: the text lies on a pin shape, whose net it takes *)
Definition pin_for (q : gds) (pin_shapes : list shape) (tx : string * point) : list pin :=
  match find (fun s : shape => inside (fst s) (snd tx)) pin_shapes, last_such (fun c => eqb (cl_pair c) q) (computed t) with
  | Some s, Some c => [Pin (fst tx) (snd s) (lid q) (cl_orig c) (cl_name c) (snd tx)]
  | _, _ => []
  end.
End Pins.

(** ** process metals *)
Section Metals.
Variables (t : tech) (shapes : gds -> option (list shape)).
(** the GDS pair of a layer name: a computed layer, else a layer *)
Definition pair_of (name : string) : option gds :=
  match info_of t name with
  | Some c => Some (cl_pair c)
  | None => drawn t name
  end.
Definition canonical_metal (m : string) : option string :=
  match pair_of m with Some p => canon_of t p | None => None end.
(** the shapes found for a metal; [None]: nothing was extracted on its GDS pair *)
Definition metal_shapes (m : string) : option (list shape) :=
  match pair_of m with Some p => shapes p | None => None end.
(** the metals with extracted shapes and their canonical names *)
Definition present (metals : list string) : list (string * list shape) :=
  flat_map (fun m => match canonical_metal m, metal_shapes m with Some cn, Some s => [(cn, s)] | _, _ => [] end) metals.
End Metals.

(** ** all pins *)
Section AllPins.
Variables (t : tech) (blackbox : bool) (db : lvsdb) (labels : gds -> list (string * point)) (inside : poly -> point -> bool) (lid : gds -> nat).
(** the drawn layer to which the pins on extracted pair [q] belong *)
Definition pin_target (q : gds) : option gds := match canon_of t q with Some cn => drawn t cn | None => None end.
(** the LVS layers with the pin shapes of drawn layer [p], and the texts on its label layer *)
Definition pin_sources (p : gds) : list xlayer := match layer_of t p with Some l => sources t blackbox db (tl_pin l) | None => [] end.
Definition texts_of (p : gds) : list (string * point) := match layer_of t p with Some l => labels (tl_label l) | None => [] end.
Definition expected_pins (p : gds) : list pin :=
  flat_map (fun q => if eqb (pin_target q) (Some p)
                     then flat_map (fun _ => flat_map (pin_for t inside lid q (flat_map x_shapes (pin_sources p))) (texts_of p)) (sources t blackbox db q)
                     else []) (used_pairs t blackbox db).
End AllPins.

(** ** devices *)
Section Devices.
Variables (t : tech) (blackbox : bool) (db : lvsdb).
(** [r] describes the shapes [e] of a terminal: same polygons (hulls), and the annotated layer that holds the same LVS layer *)
Definition region_matches (e : nat * list (poly * option string)) (r : lregion) : Prop :=
  exists l p, In l (db_layers db) /\ lv_index l = fst e /\
    (match info_of t (lv_name l) with Some c => Some (cl_pair c) | None => lv_info l end) = Some p /\
    canon_of t p = Some (lr_canonical r) /\
    nth_error (fst (layer_map t blackbox db)) (lr_layer r) = Some (lv_index l, p) /\
    map pb_hull (lr_region r) = map (fun s => hull (fst s)) (snd e).
(** the terminals of a device: for each definition the references to it on its net *)
Definition terminal_refs (d : kdevice) : list (nat * string * string * tref) :=
  flat_map (fun td => match kd_net d (fst td) with
                      | Some (net, refs) => map (fun r => (fst td, snd td, net, r))
                          (filter (fun r => eqb (tr_device r) (kd_name d) && eqb (tr_terminal r) (fst td)) refs)
                      | None => []
                      end) (kd_terminals d).
Definition terminal_matches (d : kdevice) (e : nat * string * string * tref) (v : terminal) : Prop :=
  let '(id, name, net, r) := e in
  tm_device v = kd_id d /\ tm_id v = id /\ tm_name v = name /\ tm_net v = net /\ Forall2 region_matches (tr_shapes r) (tm_regions v).
Definition device_matches (d : kdevice) (v : device) : Prop :=
  dv_id v = kd_id d /\ dv_name v = kd_name d /\ dv_class v = kd_class d /\ dv_abstract v = kd_abstract d /\ dv_params v = kd_params d /\
  Forall2 (terminal_matches d) (terminal_refs d) (dv_terminals v).
(** a layer whose terminal shapes can be described *)
Definition describable (i : nat) : Prop :=
  exists l, In l (db_layers db) /\ lv_index l = i /\
    match info_of t (lv_name l), lv_info l with
    | Some c, _ => hidden blackbox c = false
    | None, Some p => canon_of t p <> None
    | None, None => False
    end.
End Devices.
