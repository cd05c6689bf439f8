(** Model of klayout_pex/klayout/lvsdb_extractor.py (KLayoutExtractionContext), of the layer lookup in
    klayout_pex/tech_info.py, of klayout_pex/klayout/shapes_pb2_converter.py (to protobuf) and of
    klayout_pex/rcx25/extractor.py (RCX25Extractor.extract_cell).

    From outside come: the layers of the LVS database with their indexes, names and LayerInfo, the net shapes that
    LayoutToNetlist.build_all_nets copies into the annotated layout (flattened, each with its 'net' property), the texts,
    and the devices.  A region is the list of its polygons; iterator transformations are the identity (BNH_Flatten).
    Log output is left out; [None] in an option result is an exception unless the comment says otherwise. *)
From Coq Require Import String ZArith.
From Verif Require Import PyBase PyLib ER_Model UT_Model.
Local Open Scope string_scope.
Local Open Scope list_scope.

Notation gds := (Z * Z)%type.
Notation point := (Z * Z)%type.
Record poly := Poly { hull : list point; holes : list (list point) }.
(** a polygon and its 'net' property *)
Notation shape := (poly * string)%type.

(** ** technology, protos/kpex/tech/tech.proto; only the fields read here *)
Inductive kind := KUnspecified | KRegular | KCapacitor | KResistor | KPin | KLabel.
Inductive purpose := PNWell | PNImplant | PPImplant | PMetal | PContact | PVia | POther.
(** ComputedLayerInfo: layer_info.name, layer_info.drw_gds_pair, kind, layer_info.purpose, original_layer_name *)
Record clayer := CLayer { cl_name : string; cl_pair : gds; cl_kind : kind; cl_purpose : purpose; cl_orig : string }.
(** LayerInfo: name, drw_gds_pair, pin_gds_pair, label_gds_pair; an unset GDS pair reads as (0, 0) *)
Record tlayer := TLayer { tl_name : string; tl_drw : gds; tl_pin : gds; tl_label : gds }.
(** Technology: lvs_computed_layers, layers *)
Record tech := Tech { computed : list clayer; layers : list tlayer }.

(** {key(x): val(x) for x in l}: a later entry replaces the value *)
Definition comp_dict {A K V} `{EqDec K} (key : A -> K) (val : A -> V) (l : list A) : dict K V :=
  fold_left (fun d x => dset d (key x) (val x)) l [].

Section Tech.
Variable t : tech.
(** gds_pair_for_computed_layer_name, tech_info.py L66-69 *)
Definition gds_pair_for_computed_layer_name : dict string gds := comp_dict cl_name cl_pair (computed t).
(** computed_layer_info_by_name, tech_info.py L71-73 *)
Definition computed_layer_info_by_name : dict string clayer := comp_dict cl_name (fun c => c) (computed t).
(** computed_layer_info_by_gds_pair, tech_info.py L75-80 *)
Definition computed_layer_info_by_gds_pair : dict gds clayer := comp_dict cl_pair (fun c => c) (computed t).
(** canonical_layer_name_by_gds_pair, tech_info.py L82-87 *)
Definition canonical_layer_name_by_gds_pair : dict gds string := comp_dict cl_pair cl_orig (computed t).
(** gds_pair_for_layer_name, tech_info.py L100-102 *)
Definition gds_pair_for_layer_name : dict string gds := comp_dict tl_name tl_drw (layers t).
(** layer_info_by_gds_pair, tech_info.py L104-106 *)
Definition layer_info_by_gds_pair : dict gds tlayer := comp_dict tl_drw (fun l => l) (layers t).
(** gds_pair, tech_info.py L254-261; a tuple is always true; [None] is Python's None *)
Definition gds_pair (name : string) : option gds :=
  match dget gds_pair_for_computed_layer_name name with
  | Some p => Some p
  | None => dget gds_pair_for_layer_name name
  end.
End Tech.

(** ** KLayoutExtractionContext *)
(** an LVS layer: lvsdb.layer_indexes(), layer_name(), internal_layout().get_info(); [None] is an empty LayerInfo *)
Record lvslayer := LvsLayer { lv_index : nat; lv_name : string; lv_info : option gds }.
(** the LVS database: its layers, and the net shapes of the layer with a given index *)
Record lvsdb := LvsDB { db_layers : list lvslayer; db_shapes : nat -> list shape }.
(** KLayoutExtractedLayerInfo, lvsdb_extractor.py L60-65; of KLayoutMergedExtractedLayerInfo L68-71 only source_layers is
    kept (its gds_pair is the key under which it is stored) *)
Record xlayer := XLayer { x_index : nat; x_name : string; x_pair : gds; x_shapes : list shape }.

Definition enumerate {A} (l : list A) : list (nat * A) := combine (seq 0 (List.length l)) l.

Section Context.
Variables (t : tech) (blackbox : bool) (db : lvsdb).

(** the device layers left out, lvsdb_extractor.py L174-179 and L229-234 *)
Definition left_out (c : clayer) : bool :=
  match cl_kind c with KResistor | KCapacitor => blackbox | _ => false end.

(** build_LVS_layer_map, lvsdb_extractor.py L154-195.  The first component lists the new annotated layers in order (layer
    indexes are 0, 1, ...): the LVS layer whose region it takes (lvsdb_regions) and its GDS pair; the second is
    layer_index_map.  The version check L167-168 is left out. *)
Definition map_step (st : list (nat * gds) * dict nat nat) (l : lvslayer) : list (nat * gds) * dict nat nat :=
  let add p := (fst st ++ [(lv_index l, p)], dset (snd st) (lv_index l) (List.length (fst st))) in
  if match dget (computed_layer_info_by_name t) (lv_name l) with Some c => left_out c | None => false end then st
  else match dget (gds_pair_for_computed_layer_name t) (lv_name l) with
       | Some p => add p
       | None => match lv_info l with Some p => add p | None => st end
       end.
Definition layer_map : list (nat * gds) * dict nat nat := fold_left map_step (db_layers db) ([], []).
(** the shapes on an annotated layer after build_all_nets, lvsdb_extractor.py L124-133 and L213 *)
Definition annotated (li : nat) : list shape :=
  match nth_error (fst layer_map) li with Some (i, _) => db_shapes db i | None => [] end.

(** nonempty_extracted_layers, lvsdb_extractor.py L197-255: the merged layers by GDS pair and the unnamed layers *)
Definition extract_step (st : dict gds (list xlayer) * list xlayer) (e : nat * lvslayer) : dict gds (list xlayer) * list xlayer :=
  let '(idx, l) := e in
  match dget (snd layer_map) (lv_index l) with
  | None => st
  | Some li =>
      match annotated li with
      | [] => st
      | s :: ss =>
          match dget (computed_layer_info_by_name t) (lv_name l) with
          | None => (fst st, snd st ++ [XLayer idx (lv_name l) (1000 + Z.of_nat idx, 20)%Z (s :: ss)])
          | Some c =>
              if left_out c then st
              else let x := XLayer idx (lv_name l) (cl_pair c) (s :: ss) in
                   (match dget (fst st) (cl_pair c) with
                    | Some xs => dset (fst st) (cl_pair c) (xs ++ [x])
                    | None => dset (fst st) (cl_pair c) [x]
                    end, snd st)
          end
      end
  end.
Definition extraction : dict gds (list xlayer) * list xlayer := fold_left extract_step (enumerate (db_layers db)) ([], []).
Definition extracted_layers : dict gds (list xlayer) := fst extraction.
Definition unnamed_layers : list xlayer := snd extraction.

(** shapes_of_net, lvsdb_extractor.py L265-293; the inserted polygons carry no properties; [None] is Python's None *)
Definition shapes_of_net (p : gds) (net : string) : option (list poly) :=
  match dget extracted_layers p with
  | None => None
  | Some xs => Some (flat_map (fun x => map fst (filter (fun s : shape => eqb (snd s) net) (x_shapes x))) xs)
  end.
(** shapes_of_layer, lvsdb_extractor.py L295-323; [None] is Python's None *)
Definition shapes_of_layer (p : gds) : option (list shape) :=
  match dget extracted_layers p with
  | None => None
  | Some [x] => Some (x_shapes x)
  | Some xs => Some (flat_map (fun x => map (fun s : shape => (fst s, snd s)) (x_shapes x)) xs)
  end.

(** ** pins *)
(** the texts found for a label GDS pair (labels_of_layer, lvsdb_extractor.py L336-347), and Polygon.inside *)
Variables (labels : gds -> list (string * point)) (inside : poly -> point -> bool).
(** annotated_layout.layer(l, d): an annotated layer with this GDS pair *)
Variable lid : gds -> nat.
(** pins_of_layer, lvsdb_extractor.py L325-334; [None] is the KeyError or the NotImplementedError *)
Definition pins_of_layer (p : gds) : option (list shape) :=
  match dget (layer_info_by_gds_pair t) p with
  | None => None
  | Some l =>
      match dget extracted_layers (tl_pin l) with
      | None => Some []
      | Some [x] => Some (x_shapes x)
      | Some _ => None
      end
  end.
(** pin_pb2.Pin; label_point.net repeats net_name *)
Record pin := Pin { pin_label : string; pin_net : string; pin_layer : nat; pin_canonical : string; pin_lvs : string; pin_point : point }.
(** all results, or the exception *)
Definition all_some {A} (l : list (option A)) : option (list A) :=
  fold_right (fun o acc => match o, acc with Some v, Some r => Some (v :: r) | _, _ => None end) (Some []) l.
(** the loop body lvsdb_extractor.py L432-468 for the source layer [x].  `labels & pins` (L437) keeps the texts that some
    pin polygon contains, in order; the net is that of the first such polygon (L452-456). *)
Definition pins_of_source (p : gds) (x : xlayer) : option (list pin) :=
  match dget (layer_info_by_gds_pair t) p, pins_of_layer p with
  | Some l, Some pins =>
      all_some (flat_map (fun tx : string * point =>
        match find (fun s : shape => inside (fst s) (snd tx)) pins with
        | None => []
        | Some s =>
            match dget (canonical_layer_name_by_gds_pair t) (x_pair x), dget (computed_layer_info_by_gds_pair t) (x_pair x) with
            | Some cn, Some c => [Some (Pin (fst tx) (snd s) (lid (x_pair x)) cn (cl_name c) (snd tx))]
            | _, _ => [None]
            end
        end) (labels (tl_label l)))
  | _, _ => None
  end.
(** pins_pb2_by_layer, lvsdb_extractor.py L416-470 *)
Definition pin_step (d : option (dict gds (list pin))) (e : gds * list xlayer) : option (dict gds (list pin)) :=
  match d, dget (canonical_layer_name_by_gds_pair t) (fst e) with
  | Some d0, Some cn =>
      match dget (gds_pair_for_layer_name t) cn with
      | None => d
      | Some p =>
          match dget (layer_info_by_gds_pair t) p with
          | None => d
          | Some _ =>
              fold_left (fun d x => match d, pins_of_source p x with
                                    | Some d, Some ps => Some (fold_left (fun d v => dappend d p v) ps d)
                                    | _, _ => None
                                    end) (snd e) d
          end
      end
  | _, _ => None
  end.
Definition pins_by_layer : option (dict gds (list pin)) := fold_left pin_step extracted_layers (Some []).
End Context.

(** ** protobuf shapes *)
(** shapes_pb2.Polygon: hull points and net ('' when unset) *)
Record pbpoly := PbPoly { pb_hull : list point; pb_net : string }.
(** klayout_polygon_to_pb and klayout_region_to_pb, shapes_pb2_converter.py L65-78; the net property may be missing *)
Definition polygon_to_pb (s : poly * option string) : pbpoly :=
  PbPoly (hull (fst s)) (match snd s with Some n => n | None => "" end).
Definition region_to_pb (r : list (poly * option string)) : list pbpoly := map polygon_to_pb r.

(** ** devices *)
(** kdb.NetTerminalRef: device expanded name, terminal id, shapes_of_terminal by LVS layer index *)
Record tref := TRef { tr_device : string; tr_terminal : nat; tr_shapes : list (nat * list (poly * option string)) }.
(** kdb.Device: id, expanded name, class name, abstract name, parameters, terminal definitions, and for a terminal id the
    net (its name and its terminal references) or [None] if unconnected *)
Record kdevice := KDevice { kd_id : nat; kd_name : string; kd_class : string; kd_abstract : string;
  kd_params : list (nat * string * Qc); kd_terminals : list (nat * string); kd_net : nat -> option (string * list tref) }.
(** layer id, canonical layer name and region *)
Record lregion := LRegion { lr_layer : nat; lr_canonical : string; lr_region : list pbpoly }.
(** device_pb2.Device and Device.Terminal *)
Record terminal := Terminal { tm_device : nat; tm_id : nat; tm_name : string; tm_net : string; tm_regions : list lregion }.
Record device := Device { dv_id : nat; dv_name : string; dv_class : string; dv_abstract : string;
  dv_params : list (nat * string * Qc); dv_terminals : list terminal }.

Section Devices.
Variables (t : tech) (blackbox : bool) (db : lvsdb).
(** lvsdb_extractor.py L402-410; [None] is a KeyError *)
Definition terminal_region (e : nat * list (poly * option string)) : option lregion :=
  match dget (snd (layer_map t blackbox db)) (fst e) with
  | None => None
  | Some li =>
      match nth_error (fst (layer_map t blackbox db)) li with
      | None => None
      | Some (_, p) => match dget (canonical_layer_name_by_gds_pair t) p with
                       | None => None
                       | Some cn => Some (LRegion li cn (region_to_pb (snd e)))
                       end
      end
  end.
(** lvsdb_extractor.py L375-410 for one terminal definition; an unconnected terminal raises an AttributeError at L378,
    because device_pb2.Device has neither `name` nor `device_class` *)
Definition device_terminals (d : kdevice) (td : nat * string) : option (list terminal) :=
  match kd_net d (fst td) with
  | None => None
  | Some (net, refs) =>
      all_some (map (fun r => match all_some (map terminal_region (tr_shapes r)) with
                              | Some rs => Some (Terminal (kd_id d) (fst td) (snd td) net rs)
                              | None => None
                              end)
                    (filter (fun r => eqb (tr_device r) (kd_name d) && eqb (tr_terminal r) (fst td)) refs))
  end.
(** devices_by_name, lvsdb_extractor.py L353-414 *)
Definition device_step (dd : option (dict string device)) (d : kdevice) : option (dict string device) :=
  match dd, all_some (map (device_terminals d) (kd_terminals d)) with
  | Some dd, Some ts => Some (dset dd (kd_name d) (Device (kd_id d) (kd_name d) (kd_class d) (kd_abstract d) (kd_params d) (List.concat ts)))
  | _, _ => None
  end.
Definition devices_by_name (ds : list kdevice) : option (dict string device) := fold_left device_step ds (Some []).
End Devices.

(** ** extract_cell *)
Section Cell.
Variable t : tech.
(** pex_context.shapes_of_layer *)
Variable context_shapes : gds -> option (list shape).
(** the substrate shape: the top cell box enlarged by the halo, extractor.py L127-131; it has no net, written "" here *)
Variable substrate : list shape.
(** RCX25Extractor.shapes_of_layer, extractor.py L77-86; [None] is Python's None *)
Definition layer_shapes (name : string) : option (list shape) :=
  match gds_pair t name with None => None | Some p => context_shapes p end.
(** the loop extractor.py L141-166 over the names of the process metal layers, only layer_regions_by_name; the dictionaries
    about vias and all_region are never read.  [None] is the KeyError of L144. *)
Definition region_step (d : option (dict string (list shape))) (metal : string) : option (dict string (list shape)) :=
  match d, gds_pair t metal with
  | Some d, Some p =>
      match dget (canonical_layer_name_by_gds_pair t) p with
      | None => None
      | Some cn => match layer_shapes metal with
                   | None => Some d
                   | Some s => Some (dset d cn (match dget d cn with Some r => r | None => [] end ++ s))
                   end
      end
  | _, _ => None
  end.
Definition layer_regions (metals : list string) : option (dict string (list shape)) :=
  fold_left region_step metals (Some [("VSUBS", substrate)]).

(** the capacitance extractors only add entries to the results (ER_Model) *)
Inductive entry := EOverlap (x : overlap_cap) | ESidewall (x : sidewall_cap) | ESideoverlap (x : sideoverlap_cap).
Definition add_entry (c : cell_results) (e : entry) : cell_results :=
  match e with
  | EOverlap x => add_overlap_cap c x
  | ESidewall x => add_sidewall_cap c x
  | ESideoverlap x => add_sideoverlap_cap c x
  end.
(** OverlapExtractor and SidewallAndFringeExtractor as called at extractor.py L172-191: they get the layer names and the
    regions; the resistance extraction L195-243 *)
Variables (overlap sidewall_fringe : list string -> dict string (list shape) -> option (list entry))
          (resistance : option (list rnetwork)).
(** extract_cell, extractor.py L115-247 *)
Definition extract_cell (mode : pexmode) (metals : list string) (results : cell_results) : option cell_results :=
  match layer_regions metals with
  | None => None
  | Some regions =>
      let c := if need_capacitance mode
               then match overlap (dkeys regions) regions, sidewall_fringe (dkeys regions) regions with
                    | Some a, Some b => Some (fold_left add_entry b (fold_left add_entry a results))
                    | _, _ => None
                    end
               else Some results in
      match c with
      | None => None
      | Some c => if need_resistance mode
                  then match resistance with
                       | Some n => Some (CellResults (overlap_table c) (sidewall_table c) (sideoverlap_table c) n)
                       | None => None
                       end
                  else Some c
      end
  end.
End Cell.
