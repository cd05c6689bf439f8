(** What the shipped PDKs should provide, written by layer names and GDS pairs. *)
From Coq Require Import String ZArith.
From Verif Require Import PyBase PyLib SW_Model TI_Model LV_Model LV_Spec RQ_Model RQ_Spec PD_Model PD_Sky130A PD_Ihp.
Local Open Scope string_scope.
Local Open Scope list_scope.

Definition shipped (T : technology) : Prop := T = sky130A \/ T = ihp.
(** LVS layer [l] of the database is called [name] and has shapes *)
Definition drawn_on (db : lvsdb) (name : string) (l : lvslayer) : Prop :=
  In l (db_layers db) /\ lv_name l = name /\ db_shapes db (lv_index l) <> [].

(** ** pins *)
(** a metal: the LVS layers with its wires and with its pin shapes, and the GDS pairs of the drawn layer and of its labels *)
Record pinrow := PinRow { pr_metal : string; pr_pin : string; pr_drawn : gds; pr_label : gds }.
Definition sky130A_lower_pins : list pinrow :=
  [ PinRow "poly_con" "poly_pin_con" (66, 20)%Z (66, 5)%Z; PinRow "li_con" "li_pin_con" (67, 20)%Z (67, 5)%Z ].
Definition sky130A_metal_pins : list pinrow :=
  [ PinRow "met1_con" "met1_pin_con" (68, 20)%Z (68, 5)%Z; PinRow "met2_con" "met2_pin_con" (69, 20)%Z (69, 5)%Z;
    PinRow "met3_ncap" "met3_pin_con" (70, 20)%Z (70, 5)%Z; PinRow "met4_ncap" "met4_pin_con" (71, 20)%Z (71, 5)%Z;
    PinRow "met5_con" "met5_pin_con" (72, 20)%Z (72, 5)%Z ].
Definition ihp_pins : list pinrow :=
  [ PinRow "poly_con" "poly_pin_con" (5, 0)%Z (5, 25)%Z; PinRow "metal1_con" "metal1_pin_con" (8, 0)%Z (8, 25)%Z;
    PinRow "metal2_con" "metal2_pin_con" (10, 0)%Z (10, 25)%Z; PinRow "metal3_con" "metal3_pin_con" (30, 0)%Z (30, 25)%Z;
    PinRow "metal4_con" "metal4_pin_con" (50, 0)%Z (50, 25)%Z; PinRow "metal5_n_cap" "metal5_pin_con" (67, 0)%Z (67, 25)%Z;
    PinRow "topmetal1_con" "topmetal1_pin_con" (126, 0)%Z (126, 25)%Z; PinRow "topmetal2_con" "topmetal2_pin_con" (134, 0)%Z (134, 25)%Z ].
(** a label that lies on a pin shape of a metal with wires is reported as a pin of that metal, with the net of a pin shape it
    lies on *)
Definition pin_reported (T : technology) (row : pinrow) : Prop :=
  forall blackbox db labels inside lid lm lp s tx, db_wf db -> NoDup (map lv_name (db_layers db)) ->
  drawn_on db (pr_metal row) lm -> drawn_on db (pr_pin row) lp -> In s (db_shapes db (lv_index lp)) ->
  In tx (labels (pr_label row)) -> inside (fst s) (snd tx) = true ->
  exists d ps v s', pins_by_layer (tech_of T) blackbox db labels inside lid = Some d /\ dget d (pr_drawn row) = Some ps /\ In v ps /\
    pin_label v = fst tx /\ pin_point v = snd tx /\
    In s' (db_shapes db (lv_index lp)) /\ inside (fst s') (snd tx) = true /\ pin_net v = snd s'.

(** ** resistance extraction *)
(** a contact or via: its LVS layer, the GDS pairs of the layers it joins, and its resistance in milliohm per cut of a width *)
Record viarow := ViaRow { vr_lvs : string; vr_bottom : gds; vr_top : gds; vr_resistance : Q; vr_width : Q }.
Local Open Scope Q_scope.
Definition sky130A_vias : list viarow :=
  [ ViaRow "licon_nsd_con" (93, 44)%Z (67, 20)%Z 185000 0.17; ViaRow "licon_psd_con" (94, 20)%Z (67, 20)%Z 585000 0.17;
    ViaRow "licon_poly_con" (66, 20)%Z (67, 20)%Z 152000 0.17; ViaRow "mcon_con" (67, 20)%Z (68, 20)%Z 9300 0.17;
    ViaRow "via2_con" (69, 20)%Z (70, 20)%Z 3410 0.20; ViaRow "via3_ncap" (70, 20)%Z (71, 20)%Z 3410 0.20;
    ViaRow "via4_ncap" (71, 20)%Z (72, 20)%Z 380 0.80 ].
Definition ihp_vias : list viarow :=
  [ ViaRow "cont_nsd_con" (7, 0)%Z (8, 0)%Z 17000 0.16; ViaRow "cont_psd_con" (14, 0)%Z (8, 0)%Z 17000 0.16;
    ViaRow "cont_poly_con" (5, 0)%Z (8, 0)%Z 15000 0.16; ViaRow "via1_drw" (8, 0)%Z (10, 0)%Z 9000 0.19;
    ViaRow "via2_drw" (10, 0)%Z (30, 0)%Z 9000 0.19; ViaRow "via3_drw" (30, 0)%Z (50, 0)%Z 9000 0.19;
    ViaRow "via4_drw" (50, 0)%Z (67, 200)%Z 9000 0.19; ViaRow "topvia1_n_cap" (67, 200)%Z (126, 0)%Z 2200 0.42;
    ViaRow "topvia2_drw" (126, 0)%Z (134, 0)%Z 1100 0.9 ].
(** a metal: its LVS layer, its GDS pair and its sheet resistance in milliohm *)
Record metalrow := MetalRow { mr_lvs : string; mr_pair : gds; mr_resistance : Q }.
Definition sky130A_metals : list metalrow :=
  [ MetalRow "poly_con" (66, 20)%Z 48200; MetalRow "li_con" (67, 20)%Z 12800; MetalRow "met1_con" (68, 20)%Z 125; MetalRow "met2_con" (69, 20)%Z 125;
    MetalRow "met3_ncap" (70, 20)%Z 47; MetalRow "met4_ncap" (71, 20)%Z 47; MetalRow "met5_con" (72, 20)%Z 29 ].
Definition ihp_metals : list metalrow :=
  [ MetalRow "poly_con" (5, 0)%Z 7000; MetalRow "metal1_con" (8, 0)%Z 110; MetalRow "metal2_con" (10, 0)%Z 88; MetalRow "metal3_con" (30, 0)%Z 88;
    MetalRow "metal4_con" (50, 0)%Z 88; MetalRow "metal5_n_cap" (67, 200)%Z 88; MetalRow "topmetal1_con" (126, 0)%Z 18; MetalRow "topmetal2_con" (134, 0)%Z 11 ].
Local Close Scope Q_scope.
(** the text layers of the technology hold no polygons *)
Definition labels_have_no_polygons (T : technology) (db : lvsdb) : Prop :=
  forall l c, In l (db_layers db) -> info_of (tech_of T) (lv_name l) = Some c -> cl_kind c = KLabel -> db_shapes db (lv_index l) = [].
(** the resistor extractor's view of the technology *)
Section R.
Variables (T : technology) (sub wire : algorithm) (b amax merge : Qc) (skip : bool) (blackbox : bool) (db : lvsdb) (lid : gds -> nat).
Definition r_tech : option rextech :=
  prepare_tech (tech_of T) (rstack_of T) (resistances_of T) sub wire b amax merge skip (extracted_layers (tech_of T) blackbox db) lid.
End R.

(** ** FasterCap input *)
(** no conductor or dielectric is upside down *)
Definition upright {face} (x : @call face) : Prop :=
  match x with AddDielectric _ _ _ h => (0 <= h)%Qc | AddConductor _ _ _ h => (0 < h)%Qc | AddMaterial _ => True end.
