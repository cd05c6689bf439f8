(** Model of klayout_pex/rcx25/r/r_extractor.py (RExtractor), klayout_pex/klayout/rex_core.py,
    klayout_pex/klayout/shapes_pb2_converter.py (from protobuf) and the resistance part of klayout_pex/tech_info.py.

    Numbers are exact rationals.  The KLayout resistor extraction (klp.RNetExtractor) is an arbitrary function.  Log output
    is left out; [None] is an exception unless the comment says otherwise. *)
From Coq Require Import String ZArith.
From Verif Require Import PyBase PyLib ER_Model LV_Model.
Local Open Scope string_scope.
Local Open Scope list_scope.

(** ** resistance data *)
(** ProcessStackInfo.Contact: name, layer_below, metal_above, width *)
Record rcontact := RContact { rc_name : string; rc_below : string; rc_above : string; rc_width : Qc }.
Definition no_contact : rcontact := RContact "" "" "" 0%Qc.
(** the process stack, only the contacts; for a metal [None] is an unset contact_above, for nwell and diffusion the field is
    read without HasField, so that an unset one is [no_contact] *)
Inductive stacked := SNWell (c : rcontact) | SDiffusion (c : rcontact) | SMetal (c : option rcontact) | SOther.
(** process_parasitics.resistance: layers (layer_name), contacts (device_layer_name), vias (via_name), in milliohm *)
Record resistances := Resistances { res_layers : list (string * Qc); res_contacts : list (string * Qc); res_vias : list (string * Qc) }.

(** layer_resistance_by_layer_name, contact_resistance_by_device_layer_name, via_resistance_by_layer_name,
    tech_info.py L284-294 *)
Definition resistance_of (l : list (string * Qc)) (name : string) : option Qc := dget (comp_dict fst snd l) name.
(** contact_by_contact_lvs_layer_name, tech_info.py L238-252 *)
Definition contact_entry (s : stacked) : list rcontact :=
  match s with SNWell c | SDiffusion c => [c] | SMetal (Some c) => [c] | SMetal None => [no_contact] | SOther => [] end.
Definition contact_by_name (stack : list stacked) (name : string) : option rcontact :=
  dget (comp_dict rc_name (fun c => c) (flat_map contact_entry stack)) name.
(** bottom_and_top_layer_name_by_via_computed_layer_name, tech_info.py L263-281 *)
Definition via_entry (s : stacked) : list rcontact := match s with SMetal (Some c) => [c] | _ => [] end.
Definition bottom_and_top (stack : list stacked) (name : string) : option (string * string) :=
  dget (comp_dict rc_name (fun c => (rc_below c, rc_above c)) (flat_map via_entry stack)) name.
(** milliohm_to_ohm, tech_info.py L296-300 *)
Definition milliohm_to_ohm (r : Qc) : Qc := (r / Q2Qc 1000)%Qc.
(** milliohm_by_cnt_to_ohm_by_square_for_contact and ..._for_via, tech_info.py L302-316 *)
Definition ohm_by_square (c : rcontact) (r : Qc) : Qc := (r / Q2Qc 1000 * (rc_width c * rc_width c))%Qc.

(** ** the technology for the resistor extraction, protos/kpex/klayout/r_extractor_tech.proto *)
Inductive algorithm := SquareCounting | Tesselation.
Record conductor := Conductor { co_layer : nat; co_canonical : string; co_lvs : string; co_min_b : Qc; co_max_area : Qc;
  co_algorithm : algorithm; co_resistance : Qc }.
Record via := Via { vi_layer : nat; vi_canonical : string; vi_lvs : string; vi_bottom : nat; vi_top : nat; vi_resistance : Qc; vi_merge : Qc }.
(** a via message to which nothing was assigned *)
Definition empty_via : via := Via 0 "" "" 0 0 0%Qc 0%Qc.
Record rextech := RexTech { rt_skip_simplify : bool; rt_conductors : list conductor; rt_vias : list via }.

Section Request.
Variables (t : tech) (stack : list stacked) (res : resistances).
Variables (substrate_algorithm wire_algorithm : algorithm) (delaunay_b delaunay_amax via_merge_distance : Qc) (skip_simplify : bool).
(** pex_context.extracted_layers and annotated_layout.layer(l, d) *)
Variables (extracted : dict gds (list xlayer)) (lid : gds -> nat).

Definition implant_conductor (cn : string) (x : xlayer) : conductor :=
  Conductor (lid (x_pair x)) cn (x_name x) delaunay_b delaunay_amax substrate_algorithm 0%Qc.
(** r_extractor.py L134-148; [None] is the AttributeError when the layer has no resistance *)
Definition metal_conductor (cn : string) (x : xlayer) : option conductor :=
  match resistance_of (res_layers res) cn with
  | None => None
  | Some r => Some (Conductor (lid (x_pair x)) cn (x_name x) delaunay_b delaunay_amax
                              (if eqb cn "VSUBS" then substrate_algorithm else wire_algorithm) (milliohm_to_ohm r))
  end.
(** r_extractor.py L151-183: the vias one contact source layer contributes; [None] is the TypeError of layer( *None ) *)
Definition contact_via (cn : string) (x : xlayer) : option (list via) :=
  match contact_by_name stack (x_name x) with
  | None => Some []
  | Some c =>
      match resistance_of (res_contacts res) (rc_below c) with
      | None => Some []
      | Some r =>
          match gds_pair t (rc_below c), gds_pair t (rc_above c) with
          | Some b, Some a => Some [Via (lid (x_pair x)) cn (x_name x) (lid b) (lid a) (ohm_by_square c r) via_merge_distance]
          | _, _ => None
          end
      end
  end.
(** r_extractor.py L190-217; the via message is added before the lookup, so that a missing entry leaves an empty one *)
Definition metal_via (cn : string) (r : Qc) (x : xlayer) : option (list via) :=
  match bottom_and_top stack (x_name x) with
  | None => Some [empty_via]
  | Some (bot, top) =>
      match gds_pair t bot, gds_pair t top with
      | Some b, Some a =>
          match contact_by_name stack (x_name x) with
          | Some c => Some [Via (lid (x_pair x)) cn (x_name x) (lid b) (lid a) (ohm_by_square c r) via_merge_distance]
          | None => None
          end
      | _, _ => None
      end
  end.
(** the loop body of prepare_r_extractor_tech_pb, r_extractor.py L94-217: the conductors and vias one layer contributes *)
Definition tech_entry (e : gds * list xlayer) : option (list conductor * list via) :=
  match dget (computed_layer_info_by_gds_pair t) (fst e) with
  | None => Some ([], [])
  | Some c =>
      match dget (canonical_layer_name_by_gds_pair t) (fst e) with
      | None => None
      | Some cn =>
          match cl_kind c with
          | KPin => Some ([], [])
          | _ =>
              match cl_purpose c with
              | PNImplant | PPImplant => Some (map (implant_conductor cn) (snd e), [])
              | PMetal => match all_some (map (metal_conductor cn) (snd e)) with Some cs => Some (cs, []) | None => None end
              | PContact => match all_some (map (contact_via cn) (snd e)) with Some vs => Some ([], List.concat vs) | None => None end
              | PVia =>
                  match resistance_of (res_vias res) cn with
                  | None => Some ([], [])
                  | Some r => match all_some (map (metal_via cn r) (snd e)) with Some vs => Some ([], List.concat vs) | None => None end
                  end
              | PNWell | POther => Some ([], [])
              end
          end
      end
  end.
(** prepare_r_extractor_tech_pb, r_extractor.py L83-219 *)
Definition prepare_tech : option rextech :=
  match all_some (map tech_entry extracted) with
  | None => None
  | Some es => Some (RexTech skip_simplify (flat_map fst es) (flat_map snd es))
  end.

(** ** the request *)
(** LayerRegion in a net request, with the LVS layer name *)
Record rregion := RRegion { rr_layer : nat; rr_canonical : string; rr_lvs : string; rr_region : list pbpoly }.
(** RNetExtractionRequest without its net name, which is the key *)
Record netreq := NetReq { nr_pins : list pin; nr_terminals : list terminal; nr_regions : list rregion }.
Definition no_request : netreq := NetReq [] [] [].
(** get_or_create_net_request, r_extractor.py L235-242: the list of requests and the dictionary by name are one dictionary in
    insertion order *)
Definition request_of (d : dict string netreq) (net : string) : netreq := match dget d net with Some v => v | None => no_request end.
Definition add_pin (d : dict string netreq) (p : pin) : dict string netreq :=
  let v := request_of d (pin_net p) in dset d (pin_net p) (NetReq (nr_pins v ++ [p]) (nr_terminals v) (nr_regions v)).
Definition add_terminal (d : dict string netreq) (x : terminal) : dict string netreq :=
  let v := request_of d (tm_net x) in dset d (tm_net x) (NetReq (nr_pins v) (nr_terminals v ++ [x]) (nr_regions v)).
Definition add_rregion (net : string) (d : dict string netreq) (r : rregion) : dict string netreq :=
  let v := request_of d net in dset d net (NetReq (nr_pins v) (nr_terminals v) (nr_regions v ++ [r])).
(** pex_context.shapes_of_net, and whether an empty kdb.Region counts as true (this depends on the KLayout Python binding) *)
Variables (net_shapes : gds -> string -> option (list poly)) (empty_truthy : bool).
Definition region_truthy (r : list poly) : bool := match r with [] => empty_truthy | _ => true end.
(** r_extractor.py L262-274 for one net and one source layer; [None] is a KeyError *)
Definition net_region (net : string) (q : gds) (x : xlayer) : option (list rregion) :=
  match dget (computed_layer_info_by_gds_pair t) (x_pair x) with
  | None => None
  | Some c =>
      match cl_kind c with
      | KRegular | KCapacitor | KResistor =>
          match net_shapes (x_pair x) net with
          | None => Some []
          | Some r =>
              if region_truthy r
              then match dget (canonical_layer_name_by_gds_pair t) q with
                   | None => None
                   | Some cn => Some [RRegion (lid q) cn (x_name x) (region_to_pb (map (fun s => (s, None)) r))]
                   end
              else Some []
          end
      | _ => Some []
      end
  end.
(** the loops r_extractor.py L259-274 for one net: its regions in order *)
Definition net_regions (net : string) : option (list rregion) :=
  match all_some (flat_map (fun e : gds * list xlayer => map (net_region net (fst e)) (snd e)) extracted) with
  | None => None
  | Some rs => Some (List.concat rs)
  end.
Definition net_step (d : option (dict string netreq)) (net : string) : option (dict string netreq) :=
  match d, net_regions net with
  | Some d, Some rs => Some (fold_left (add_rregion net) rs d)
  | _, _ => None
  end.
(** the net requests of prepare_request, r_extractor.py L227-276; [nets]: net.name of the nets of the top circuit, which is
    found; the request's own lists of devices and pins are the arguments *)
Definition net_requests (devices : list device) (pins : list pin) (nets : list string) : option (dict string netreq) :=
  fold_left net_step nets
    (Some (fold_left add_terminal (flat_map dv_terminals devices) (fold_left add_pin pins []))).
End Request.

(** ** klayout_r_extractor_tech, rex_core.py L30-56 *)
Record kconductor := KConductor { kc_layer : nat; kc_algorithm : algorithm; kc_min_b : Qc; kc_max_area : Qc; kc_resistance : Qc }.
Record kvia := KVia { kv_cut : nat; kv_bottom : nat; kv_top : nat; kv_resistance : Qc; kv_merge : Qc }.
Record ktech := KTech { kt_skip_simplify : bool; kt_conductors : list kconductor; kt_vias : list kvia }.
Definition klayout_tech (r : rextech) : ktech :=
  KTech (rt_skip_simplify r)
    (map (fun c => KConductor (co_layer c) (co_algorithm c) (co_min_b c) (co_max_area c) (co_resistance c)) (rt_conductors r))
    (map (fun v => KVia (vi_layer v) (vi_bottom v) (vi_top v) (vi_resistance v) (vi_merge v)) (rt_vias r)).

(** ** extract *)
(** klp.RNode: object_id, to_s, layer, type with port_index, and the location: center and corners in database units *)
Inductive nport := VertexPort (i : nat) | PolygonPort (i : nat) | NoPort.
Record knode := KNode { kn_id : nat; kn_name : string; kn_layer : nat; kn_port : nport; kn_center : point; kn_p1 : point; kn_p2 : point }.
(** klp.RElement: object_id, the ids of a() and b(), resistance *)
Record kelement := KElement { ke_id : nat; ke_a : nat; ke_b : nat; ke_resistance : Qc }.
(** r_network_pb2.RNode, RElement, RNetwork *)
Inductive location := LPoint (p : point) (net : string) | LBox (p1 p2 : point) (net : string).
Record xnode := XNode { xn_id : nat; xn_name : string; xn_layer : string; xn_net : string; xn_location : location }.
Record xnetwork := XNetwork { xw_net : string; xw_nodes : list xnode; xw_elements : list kelement }.

Section Extract.
(** kdb.Polygon(points): the points in KLayout's normal form *)
Variable norm : list point -> list point.
(** a polygon with its optional net property *)
Notation kpoly := (poly * option string)%type.
(** klayout_polygon and klayout_region, shapes_pb2_converter.py L37-48 *)
Definition klayout_polygon (p : pbpoly) : kpoly := (Poly (norm (pb_hull p)) [], if eqb (pb_net p) "" then None else Some (pb_net p)).
Definition klayout_region (r : list pbpoly) : list kpoly := map klayout_polygon r.
(** rex.extract, r_extractor.py L321-325 *)
Variable rex : ktech -> dict nat (list kpoly) -> dict nat (list point) -> dict nat (list kpoly) -> list knode * list kelement.

(** r_extractor.py L306-311: polygon_ports and polygon_port_device_terminals, defaultdicts of lists *)
Definition terminal_ports (ts : list terminal) : dict nat (list kpoly) * dict nat (list terminal) :=
  fold_left (fun st t =>
    fold_left (fun st l2r =>
      fold_left (fun st p => (dappend (fst st) (lr_layer l2r) (klayout_polygon p), dappend (snd st) (lr_layer l2r) t)) (lr_region l2r) st)
      (tm_regions t) st) ts ([], []).
(** r_extractor.py L313-316: vertex_ports and vertex_port_pins *)
Definition pin_ports (ps : list pin) : dict nat (list point) * dict nat (list (string * string)) :=
  fold_left (fun st p => (dappend (fst st) (pin_layer p) (pin_point p), dappend (snd st) (pin_layer p) (pin_label p, pin_net p))) ps ([], []).
(** r_extractor.py L318-319 *)
Definition regions_by_layer (rs : list rregion) : dict nat (list kpoly) :=
  fold_left (fun d r => dset d (rr_layer r) (klayout_region (rr_region r))) rs [].
(** layer_names, r_extractor.py L289-296 *)
Definition layer_names (r : rextech) : dict nat string :=
  fold_left (fun d v => dset d (vi_layer v) (vi_canonical v)) (rt_vias r)
    (fold_left (fun d c => dset d (co_layer c) (co_canonical c)) (rt_conductors r) []).
(** d[layer][i] for a defaultdict(list); [None] is an IndexError *)
Definition port_at {V} (d : dict nat (list V)) (layer i : nat) : option V :=
  match dget d layer with Some l => nth_error l i | None => None end.
(** r_extractor.py L332-371; [None] is a KeyError or IndexError *)
Definition result_node (names : dict nat string) (pins : dict nat (list (string * string))) (terms : dict nat (list terminal)) (n : knode) : option xnode :=
  match dget names (kn_layer n) with
  | None => None
  | Some cn =>
      match kn_port n with
      | VertexPort i =>
          match port_at pins (kn_layer n) i with
          | None => None
          | Some (_, net) => Some (XNode (kn_id n) (kn_name n) cn net (LPoint (kn_center n) net))
          end
      | PolygonPort i =>
          match port_at terms (kn_layer n) i with
          | None => None
          | Some x => Some (XNode (kn_id n) (kn_name n) cn (tm_net x) (LBox (kn_p1 n) (kn_p2 n) (tm_net x)))
          end
      | NoPort => Some (XNode (kn_id n) (kn_name n) cn (kn_name n) (LBox (kn_p1 n) (kn_p2 n) (kn_name n)))
      end
  end.
(** the loop body r_extractor.py L298-378 *)
Definition extract_net (r : rextech) (e : string * netreq) : option xnetwork :=
  let tp := terminal_ports (nr_terminals (snd e)) in
  let pp := pin_ports (nr_pins (snd e)) in
  let '(nodes, elements) := rex (klayout_tech r) (regions_by_layer (nr_regions (snd e))) (fst pp) (fst tp) in
  match all_some (map (result_node (layer_names r) (snd pp) (snd tp)) nodes) with
  | None => None
  | Some ns => Some (XNetwork (fst e) ns elements)
  end.
(** extract, r_extractor.py L278-380 *)
Definition extract (r : rextech) (reqs : dict string netreq) : option (list xnetwork) := all_some (map (extract_net r) reqs).
End Extract.
