(** What a resistance extraction request and its result should contain, in terms of the LVS database and the technology. *)
From Coq Require Import String ZArith.
From Verif Require Import PyBase PyLib LV_Model LV_Spec RQ_Model.
Local Open Scope string_scope.
Local Open Scope list_scope.

Section Spec.
Variables (t : tech) (blackbox : bool) (db : lvsdb) (lid : gds -> nat).

(** the computed layer that describes a GDS pair *)
Definition layer_at (q : gds) : option clayer := last_such (fun c => eqb (cl_pair c) q) (computed t).
(** the kinds of layers on which nets have regions *)
Definition conducts (k : kind) : bool := match k with KRegular | KCapacitor | KResistor => true | _ => false end.
(** the polygons of net [n] on GDS pair [q] in the LVS database *)
Definition net_polygons (q : gds) (n : string) : list poly :=
  map fst (filter (fun s : shape => eqb (snd s) n) (all_shapes t blackbox db q)).
(** a polygon as it is sent: its hull, no net *)
Definition sent (p : poly) : pbpoly := PbPoly (hull p) "".
(** [send_empty]: whether an empty region is sent as well *)
Definition regions_on (send_empty : bool) (n : string) (q : gds) : list rregion :=
  match layer_at q with
  | Some c => if conducts (cl_kind c) && (send_empty || match net_polygons q n with [] => false | _ => true end)
              then map (fun x => RRegion (lid q) (cl_orig c) (x_name x) (map sent (net_polygons q n))) (sources t blackbox db q)
              else []
  | None => []
  end.
Definition expected_regions (send_empty : bool) (n : string) : list rregion :=
  flat_map (regions_on send_empty n) (used_pairs t blackbox db).
(** the nets for which there is a request: those of a pin, of a terminal, or with a region *)
Definition requested (send_empty : bool) (terms : list terminal) (pins : list pin) (nets : list string) : list string :=
  distinct (map pin_net pins ++ map tm_net terms ++
            filter (fun n => match expected_regions send_empty n with [] => false | _ => true end) nets).
Definition expected_request (send_empty : bool) (terms : list terminal) (pins : list pin) (nets : list string) (n : string) : netreq :=
  NetReq (filter (fun p => eqb (pin_net p) n) pins) (filter (fun x => eqb (tm_net x) n) terms)
         (flat_map (expected_regions send_empty) (filter (fun m => eqb m n) nets)).
End Spec.

(** ** ports *)
(** the pins on a layer; the terminal polygons on a layer, each with its terminal *)
Definition pins_on (layer : nat) (ps : list pin) : list pin := filter (fun p => eqb (pin_layer p) layer) ps.
Definition polygons_on (layer : nat) (ts : list terminal) : list (terminal * pbpoly) :=
  flat_map (fun x => flat_map (fun r => if eqb (lr_layer r) layer then map (fun p => (x, p)) (lr_region r) else []) (tm_regions x)) ts.
(** the ports handed over: on each layer with ports their list, on other layers nothing *)
Definition ports_are {V} (d : dict nat (list V)) (f : nat -> list V) : Prop :=
  forall k, dget d k = match f k with [] => None | l => Some l end.
(** the layer name of a technology layer: that of the last via on it, else of the last conductor *)
Definition name_of_layer (r : rextech) (k : nat) : option string :=
  match last_such (fun v => eqb (vi_layer v) k) (rt_vias r) with
  | Some v => Some (vi_canonical v)
  | None => option_map co_canonical (last_such (fun c => eqb (co_layer c) k) (rt_conductors r))
  end.
(** [x] is the result for the node [n] of the extractor *)
Definition node_matches (r : rextech) (v : netreq) (n : knode) (x : xnode) : Prop :=
  xn_id x = kn_id n /\ xn_name x = kn_name n /\ name_of_layer r (kn_layer n) = Some (xn_layer x) /\
  match kn_port n with
  | VertexPort i => (exists p, nth_error (pins_on (kn_layer n) (nr_pins v)) i = Some p /\ xn_net x = pin_net p) /\
                    xn_location x = LPoint (kn_center n) (xn_net x)
  | PolygonPort i => (exists e, nth_error (polygons_on (kn_layer n) (nr_terminals v)) i = Some e /\ xn_net x = tm_net (fst e)) /\
                     xn_location x = LBox (kn_p1 n) (kn_p2 n) (xn_net x)
  | NoPort => xn_net x = kn_name n /\ xn_location x = LBox (kn_p1 n) (kn_p2 n) (xn_net x)
  end.
(** the extractor's nodes lie on layers of the technology, and port indexes exist *)
Definition node_valid (r : rextech) (v : netreq) (n : knode) : Prop :=
  name_of_layer r (kn_layer n) <> None /\
  match kn_port n with
  | VertexPort i => (i < List.length (pins_on (kn_layer n) (nr_pins v)))%nat
  | PolygonPort i => (i < List.length (polygons_on (kn_layer n) (nr_terminals v)))%nat
  | NoPort => True
  end.

(** ** technology *)
Section Technology.
Variables (t : tech) (blackbox : bool) (db : lvsdb) (stack : list stacked) (res : resistances) (lid : gds -> nat).
(** LVS layer [l] has shapes, is known, and is not a hidden device layer; [c] describes its GDS pair *)
Definition in_use (l : lvslayer) (c : clayer) : Prop :=
  In l (db_layers db) /\ has_shapes db l = true /\
  exists i, info_of t (lv_name l) = Some i /\ hidden blackbox i = false /\ layer_at t (cl_pair i) = Some c.
(** all of them, by GDS pair in order of first use, on one pair in LVS order *)
Definition layers_in_use : list (lvslayer * clayer) :=
  flat_map (fun q => match layer_at t q with
                     | Some c => map (fun l => (l, c)) (filter (belongs t blackbox db q) (db_layers db))
                     | None => []
                     end) (used_pairs t blackbox db).
Definition table (l : list (string * Qc)) (name : string) : option Qc := option_map snd (last_such (fun e => eqb (fst e) name) l).
(** the contacts of the process stack with their names: all of them, and those above metals *)
Definition all_contacts : list rcontact :=
  flat_map (fun s => match s with SNWell c | SDiffusion c => [c] | SMetal (Some c) => [c] | SMetal None => [RContact "" "" "" 0%Qc] | SOther => [] end) stack.
Definition metal_contacts : list rcontact := flat_map (fun s => match s with SMetal (Some c) => [c] | _ => [] end) stack.
Definition named (cs : list rcontact) (n : string) : option rcontact := last_such (fun c => eqb (rc_name c) n) cs.

(** the conductor that LVS layer [l] should give *)
Definition conductor_for (sub wire : algorithm) (b amax : Qc) (l : lvslayer) (c : clayer) (k : conductor) : Prop :=
  cl_kind c <> KPin /\ co_layer k = lid (cl_pair c) /\ co_canonical k = cl_orig c /\ co_lvs k = lv_name l /\ co_min_b k = b /\ co_max_area k = amax /\
  match cl_purpose c with
  | PNImplant | PPImplant => co_algorithm k = sub /\ co_resistance k = 0%Qc
  | PMetal => co_algorithm k = (if eqb (cl_orig c) "VSUBS" then sub else wire) /\
              table (res_layers res) (cl_orig c) = Some (Q2Qc 1000 * co_resistance k)%Qc
  | _ => False
  end.
(** the via that LVS layer [l] should give: between the layers below and above its contact, with the resistance in ohm times
    the contact area *)
Definition via_for (merge : Qc) (l : lvslayer) (c : clayer) (v : via) : Prop :=
  cl_kind c <> KPin /\ vi_layer v = lid (cl_pair c) /\ vi_canonical v = cl_orig c /\ vi_lvs v = lv_name l /\ vi_merge v = merge /\
  exists below above k r b a,
    named all_contacts (lv_name l) = Some k /\ pair_of t below = Some b /\ pair_of t above = Some a /\
    vi_bottom v = lid b /\ vi_top v = lid a /\ (Q2Qc 1000 * vi_resistance v = r * (rc_width k * rc_width k))%Qc /\
    match cl_purpose c with
    | PContact => below = rc_below k /\ above = rc_above k /\ table (res_contacts res) (rc_below k) = Some r
    | PVia => (exists m, named metal_contacts (lv_name l) = Some m /\ below = rc_below m /\ above = rc_above m) /\ table (res_vias res) (cl_orig c) = Some r
    | _ => False
    end.
(** which layers give a conductor, and which a via: a contact is used if its contact and the contact resistance of the layer
    below are known, a via if it has a resistance *)
Definition gives_conductor (c : clayer) : bool :=
  match cl_kind c, cl_purpose c with KPin, _ => false | _, (PNImplant | PPImplant | PMetal) => true | _, _ => false end.
Definition gives_via (l : lvslayer) (c : clayer) : bool :=
  match cl_kind c, cl_purpose c with
  | KPin, _ => false
  | _, PContact => match named all_contacts (lv_name l) with
                   | Some k => match table (res_contacts res) (rc_below k) with Some _ => true | None => false end
                   | None => false
                   end
  | _, PVia => match table (res_vias res) (cl_orig c) with Some _ => true | None => false end
  | _, _ => false
  end.
(** a via layer that no metal of the process stack has above it *)
Definition stray_via (l : lvslayer) (c : clayer) : Prop :=
  cl_kind c <> KPin /\ cl_purpose c = PVia /\ table (res_vias res) (cl_orig c) <> None /\ named metal_contacts (lv_name l) = None.
(** what makes the preparation fail *)
Definition unresolved (below above : string) : Prop := pair_of t below = None \/ pair_of t above = None.
Definition breaks (l : lvslayer) (c : clayer) : Prop :=
  cl_kind c <> KPin /\
  match cl_purpose c with
  | PMetal => table (res_layers res) (cl_orig c) = None
  | PContact => exists k, named all_contacts (lv_name l) = Some k /\ table (res_contacts res) (rc_below k) <> None /\ unresolved (rc_below k) (rc_above k)
  | PVia => table (res_vias res) (cl_orig c) <> None /\ exists m, named metal_contacts (lv_name l) = Some m /\ unresolved (rc_below m) (rc_above m)
  | _ => False
  end.
End Technology.
