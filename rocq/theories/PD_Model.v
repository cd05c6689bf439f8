(** Model of cxx/gen_tech_pb/protobuf.cpp (the builder functions L118-403), with which the technology files of the shipped
    PDKs are made, and of how the Python code reads the result (klayout_pex/tech_info.py).

    A message is the value a builder call adds; a repeated field is the list of the calls in order.  Descriptions are left
    out.  Numbers are exact decimals: the rounding to double, and of the capacitances to float (L361-403), is left out.  The
    file formats (L34-116) are left out: what is read back is what was written. *)
From Coq Require Import String ZArith.
From Verif Require Import PyBase PyLib SW_Model TI_Model LV_Model RQ_Model.
Local Open Scope string_scope.
Local Open Scope list_scope.

(** LayerInfo.Purpose as used by the PDKs (sky130A.cpp L34-45, ihp_sg13g2.cpp L38-50) *)
Inductive layer_purpose := DNWELL | NWELL | PWELL | DIFF | N_P_TAP | NTAP | PTAP | PIMP | NIMP | CONT | METAL | VIA | MIM.
(** the purposes that the Python code tells apart (r_extractor.py L105-185) *)
Definition read_purpose (p : layer_purpose) : purpose :=
  match p with NWELL => PNWell | NIMP => PNImplant | PIMP => PPImplant | METAL => PMetal | CONT => PContact | VIA => PVia | _ => POther end.

(** addLayer, protobuf.cpp L118-151: a pair with a negative number is not set, and an unset pair reads as (0, 0) *)
Definition optional_pair (l d : Z) : gds := if ((0 <=? l) && (0 <=? d))%Z then (l, d) else (0, 0)%Z.
Definition add_layer (p : layer_purpose) (name : string) (drw_l drw_d pin_l pin_d label_l label_d : Z) : tlayer :=
  TLayer name (drw_l, drw_d) (optional_pair pin_l pin_d) (optional_pair label_l label_d).
(** addComputedLayer, protobuf.cpp L153-172 *)
Definition add_computed_layer (p : layer_purpose) (k : kind) (name : string) (l d : Z) (original : string) : clayer :=
  CLayer name (l, d) k (read_purpose p) original.

(** ProcessStackInfo.Contact and setContact, protobuf.cpp L206-222 *)
Record pcontact := PContactInfo { pc_name : string; pc_below : string; pc_above : string; pc_thickness : Qc; pc_width : Qc; pc_spacing : Qc; pc_border : Qc }.
Definition set_contact (name below above : string) (thickness width spacing border : Q) : pcontact :=
  PContactInfo name below above (Q2Qc thickness) (Q2Qc width) (Q2Qc spacing) (Q2Qc border).
(** a contact that was made present by mutable_contact_above() and not filled in, and an unset one, read the same *)
Definition blank_contact : pcontact := PContactInfo "" "" "" 0%Qc 0%Qc 0%Qc 0%Qc.

(** ProcessStackInfo.LayerInfo.  contact_above is filled in after the layers were added (mutable_contact_above); here it is
    written with its layer.  [None]: not present *)
Inductive ptype :=
  | PSubstrate (height thickness : Qc) (reference : string)
  | PNWellLayer (z : Qc) (reference : string) (contact_above : option pcontact)
  | PDiffusion (z : Qc) (reference : string) (contact_above : option pcontact)
  | PFieldOxide (k : Qc)
  | PSimple (k : Qc) (reference : string)
  | PConformal (k over_metal no_metal side : Qc) (reference : string)
  | PSidewall (k above outside : Qc) (reference : string)
  | PMetalLayer (z thickness : Qc) (contact_above : option pcontact).
Record player := PLayer { pl_name : string; pl_type : ptype }.
(** addSubstrateLayer L176-189, addNWellLayer L191-204, addDiffusionLayer L224-237, addFieldOxideLayer L239-248,
    addMetalLayer L250-263, addSidewallDielectric L265-280, addSimpleDielectric L282-293, addConformalDielectric L295-312 *)
Definition add_substrate (n : string) (height thickness : Q) (r : string) : player := PLayer n (PSubstrate (Q2Qc height) (Q2Qc thickness) r).
Definition add_nwell (n : string) (z : Q) (r : string) (c : option pcontact) : player := PLayer n (PNWellLayer (Q2Qc z) r c).
Definition add_diffusion (n : string) (z : Q) (r : string) (c : option pcontact) : player := PLayer n (PDiffusion (Q2Qc z) r c).
Definition add_field_oxide (n : string) (k : Q) : player := PLayer n (PFieldOxide (Q2Qc k)).
Definition add_metal (n : string) (z thickness : Q) (c : option pcontact) : player := PLayer n (PMetalLayer (Q2Qc z) (Q2Qc thickness) c).
Definition add_sidewall (n : string) (k above outside : Q) (r : string) : player := PLayer n (PSidewall (Q2Qc k) (Q2Qc above) (Q2Qc outside) r).
Definition add_simple (n : string) (k : Q) (r : string) : player := PLayer n (PSimple (Q2Qc k) r).
Definition add_conformal (n : string) (k over no side : Q) (r : string) : player :=
  PLayer n (PConformal (Q2Qc k) (Q2Qc over) (Q2Qc no) (Q2Qc side) r).

(** addLayerResistance L317-324, addViaResistance L352-359; addContactResistance L339-350: contact, device layer, layer above *)
Definition add_resistance (n : string) (r : Q) : string * Qc := (n, Q2Qc r).
Record contact_resistance := CRes { cr_contact : string; cr_device : string; cr_above : string; cr_value : Qc }.
Definition add_contact_resistance (c d a : string) (r : Q) : contact_resistance := CRes c d a (Q2Qc r).
(** addSubstrateCap L361-370, addOverlapCap L372-381, addSidewallCap L383-392, addSidewallOverlapCap L394-403 *)
Definition add_substrate_cap (n : string) (a p : Q) : subcap := SubCap n (Q2Qc a) (Q2Qc p).
Definition add_overlap_cap (top bot : string) (c : Q) : ovcap := OvCap top bot (Q2Qc c).
Definition add_sidewall_cap (n : string) (c offset : Q) : string * (Qc * Qc) := (n, (Q2Qc c, Q2Qc offset)).
Definition add_sidewall_overlap_cap (i o : string) (c : Q) : socap := SoCap i o (Q2Qc c).

(** kpex.tech.Technology *)
Record technology := Technology {
  tn_layers : list tlayer; tn_computed : list clayer; tn_stack : list player; tn_halo : Qc;
  tn_layer_resistances : list (string * Qc); tn_contact_resistances : list contact_resistance; tn_via_resistances : list (string * Qc);
  tn_substrates : list subcap; tn_overlaps : list ovcap; tn_sidewalls : list (string * (Qc * Qc)); tn_sideoverlaps : list socap }.

(** ** what the Python code reads *)
(** the layers, tech_info.py L66-106 *)
Definition tech_of (T : technology) : tech := Tech (tn_computed T) (tn_layers T).
Definition read_contact (c : pcontact) : contact := Contact (pc_name c) (pc_thickness c).
Definition read_unset (c : option pcontact) : pcontact := match c with Some c => c | None => blank_contact end.
(** the process stack for FasterCap (TI_Model) *)
Definition slayer_of (l : player) : slayer :=
  SLayer (pl_name l) (match pl_type l with
    | PSubstrate h t _ => Substrate h t
    | PNWellLayer _ _ c => NWell (read_contact (read_unset c))
    | PDiffusion _ _ c => Diffusion (read_contact (read_unset c))
    | PFieldOxide k => FieldOxide k
    | PSimple k _ => SimpleDiel k
    | PConformal k o n s r => ConformalDiel k o n s r
    | PSidewall k a w r => SidewallDiel k a w r
    | PMetalLayer z t c => Metal z t (option_map read_contact c)
    end).
Definition stack_of (T : technology) : list slayer := map slayer_of (tn_stack T).
(** the process stack for the resistance extraction (RQ_Model) *)
Definition rcontact_of (c : pcontact) : rcontact := RContact (pc_name c) (pc_below c) (pc_above c) (pc_width c).
Definition stacked_of (l : player) : stacked :=
  match pl_type l with
  | PNWellLayer _ _ c => SNWell (rcontact_of (read_unset c))
  | PDiffusion _ _ c => SDiffusion (rcontact_of (read_unset c))
  | PMetalLayer _ _ c => SMetal (option_map rcontact_of c)
  | _ => SOther
  end.
Definition rstack_of (T : technology) : list stacked := map stacked_of (tn_stack T).
Definition resistances_of (T : technology) : resistances :=
  Resistances (tn_layer_resistances T) (map (fun c => (cr_device c, cr_value c)) (tn_contact_resistances T)) (tn_via_resistances T).
(** process_metal_layers, tech_info.py L144-149: their names *)
Definition metals_of (T : technology) : list string := map s_name (filter is_metal (stack_of T)).
(** the capacitance tables with the numbers only: overlap_cap_by_layer_names (tech_info.py L324-358),
    side_overlap_cap_by_layer_names (L368-400), sidewall_cap_by_layer_name (L360-362), substrate_cap_by_layer_name (L320-322) *)
Definition numbers {V} (value : V -> Qc) (d : TI_Model.table V) : dict string (dict string Qc) :=
  map (fun e : string * dict string V => (fst e, map (fun f : string * V => (fst f, value (snd f))) (snd e))) d.
Definition overlaps_of (T : technology) : dict string (dict string Qc) := numbers oc_value (overlap_table (tn_substrates T) (tn_overlaps T)).
Definition sideoverlaps_of (T : technology) : option (dict string (dict string Qc)) :=
  option_map (numbers so_value) (side_overlap_table (tn_substrates T) (tn_sideoverlaps T)).
Definition sidewalls_of (T : technology) : dict string (Qc * Qc) := comp_dict fst snd (tn_sidewalls T).
Definition substrates_of (T : technology) : list string := dkeys (substrate_caps (tn_substrates T)).
