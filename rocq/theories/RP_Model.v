(** Model of klayout_pex/rcx25/extraction_reporter.py, the report database of the 2.5D engine.

    A category is its path, the list of names from the top.  Simplified: KLayout's
    RdbCategory.path() is taken to tell different paths apart (it quotes names), and
    create_category with the path of an existing category gives that category.  Python
    exceptions are [None]. *)
From Coq Require Import String ZArith.
From Verif Require Import PyBase PyLib PyStr PyNum ER_Model.
From Verif Require Import LV_Model.
From Verif Require NX_Model RQ_Model.
Set Implicit Arguments.
Local Open Scope list_scope.
Local Open Scope string_scope.

Notation path := (list string).
(** the path of a category below another, as RdbCategory.path() *)
Definition snoc (p : path) (name : string) : path := (p ++ [name])%list.
(** rdb.ReportDatabase: the categories in the order of the calls of create_category, the
    items in the order of creation, and category_name_counter (L47-57) *)
Record rdb (G : Type) := Rdb { rd_cats : list path; rd_items : list (path * list G); rd_counter : dict path nat }.
(** ReportDatabase(...), L51, and the empty counter, L55 *)
Definition new_rdb {G} : rdb G := Rdb [] [] [].

Section Report.
Context {G : Type}.
(** ReportDatabase.create_category(parent, name), as in L133 *)
Definition create_category (db : rdb G) (parent : path) (name : string) : rdb G :=
  Rdb (rd_cats db ++ [snoc parent name])%list (rd_items db) (rd_counter db).
(** output_shapes, L129-138 *)
Definition output_shapes (db : rdb G) (parent : path) (name : string) (shapes : list G) : rdb G :=
  let db := create_category db parent name in
  Rdb (rd_cats db) (rd_items db ++ [(snoc parent name, shapes)])%list (rd_counter db).
(** category_name_counter[path] += 1 on a defaultdict(int), L149 and others, and the new number *)
Definition bump (db : rdb G) (p : path) : rdb G * nat :=
  let n := S (match dget (rd_counter db) p with Some k => k | None => 0%nat end) in
  (Rdb (rd_cats db) (rd_items db) (dset (rd_counter db) p n), n).

Notation nat_str := NX_Model.nat_str.

(** output_overlap, L140-160 *)
Definition output_overlap (db : rdb G) (c : overlap_cap) (bottom_polygon top_polygon : G) (overlap_area : list G) : rdb G :=
  let '(layer_top, net_top, layer_bot, net_bot) := ov_key c in
  let p0 := ["[C] Overlap"] in
  let db := create_category db p0 ("top_layer=" ++ layer_top) in
  let p1 := snoc p0 ("top_layer=" ++ layer_top) in
  let db := create_category db p1 ("bot_layer=" ++ layer_bot) in
  let p2 := snoc p1 ("bot_layer=" ++ layer_bot) in
  let db := create_category db p2 (net_top ++ " – " ++ net_bot) in
  let p3 := snoc p2 (net_top ++ " – " ++ net_bot) in
  let (db, n) := bump db p3 in
  let title := "#" ++ nat_str n ++ " " ++ show_round 3 (ov_value c) ++ " fF" in
  let db := create_category db p3 title in
  let p4 := snoc p3 title in
  let db := output_shapes db p4 "Top Polygon" [top_polygon] in
  let db := output_shapes db p4 "Bottom Polygon" [bottom_polygon] in
  output_shapes db p4 "Overlap Area" overlap_area.

(** f"{x}" for a float, as used for lengths and distances *)
Variable float_text : Qc -> string.
(** output_sidewall, L162-181 *)
Definition output_sidewall (db : rdb G) (c : sidewall_cap) (inside_edge outside_edge : G) : rdb G :=
  let '(layer, net1, net2) := sw_key c in
  let p0 := ["[C] Sidewall"] in
  let db := create_category db p0 ("layer=" ++ layer) in
  let p1 := snoc p0 ("layer=" ++ layer) in
  let db := create_category db p1 ("inside=" ++ net1) in
  let p2 := snoc p1 ("inside=" ++ net1) in
  let db := create_category db p2 ("outside=" ++ net2) in
  let p3 := snoc p2 ("outside=" ++ net2) in
  let (db, n) := bump db p3 in
  output_shapes db p3 ("#" ++ nat_str n ++ ": len " ++ float_text (sw_length c) ++ " µm, distance " ++ float_text (sw_distance c)
                       ++ " µm, " ++ show_round 3 (sw_value c) ++ " fF") [inside_edge; outside_edge].

(** output_sideoverlap, L183-212; [inside_edge] is a single edge *)
Definition output_sideoverlap (db : rdb G) (c : sideoverlap_cap) (inside_edge outside_polygon : G) (lateral_shield : option G) : rdb G :=
  let '(layer_inside, net_inside, layer_outside, net_outside) := so_key c in
  let p0 := ["[C] Fringe / Side Overlap"] in
  let db := create_category db p0 ("inside_layer=" ++ layer_inside) in
  let p1 := snoc p0 ("inside_layer=" ++ layer_inside) in
  let db := create_category db p1 ("inside_net=" ++ net_inside) in
  let p2 := snoc p1 ("inside_net=" ++ net_inside) in
  let db := create_category db p2 ("outside_layer=" ++ layer_outside) in
  let p3 := snoc p2 ("outside_layer=" ++ layer_outside) in
  let db := create_category db p3 ("outside_net=" ++ net_outside) in
  let p4 := snoc p3 ("outside_net=" ++ net_outside) in
  let (db, n) := bump db p4 in
  let title := "#" ++ nat_str n ++ ": " ++ show_round 3 (so_value c) ++ " fF" in
  let db := create_category db p4 title in
  let p5 := snoc p4 title in
  let db := output_shapes db p5 "Inside Edge" [inside_edge] in
  let db := output_shapes db p5 "Outside Polygon" [outside_polygon] in
  match lateral_shield with
  | None => db
  | Some l => output_shapes db p5 "Lateral Shield" [l]
  end.

(** one contribution with its shapes: results.add_... followed by report.output_...,
    overlap_extractor.py L148-153, sidewall_and_fringe_extractor.py L305-311 and L458-466 *)
Inductive call :=
| COverlap (c : overlap_cap) (bottom_polygon top_polygon : G) (overlap_area : list G)
| CSidewall (c : sidewall_cap) (inside_edge outside_edge : G)
| CFringe (c : sideoverlap_cap) (inside_edge outside_polygon : G) (lateral_shield : option G).
(** the same lines: the tables of results, then the report *)
Definition step (s : cell_results * rdb G) (x : call) : cell_results * rdb G :=
  match x with
  | COverlap c b t a => (add_overlap_cap (fst s) c, output_overlap (snd s) c b t a)
  | CSidewall c i o => (add_sidewall_cap (fst s) c, output_sidewall (snd s) c i o)
  | CFringe c i o l => (add_sideoverlap_cap (fst s) c, output_sideoverlap (snd s) c i o l)
  end.
(** a run: all contributions of the top cell in order *)
Definition run (xs : list call) : cell_results * rdb G := fold_left step xs (new_cell, new_rdb).
End Report.
Arguments call : clear implicits.

(** * The resistance part *)
Import RQ_Model.
(** kdb.Box, and the arrow polygon of a kdb.Path of width 5 between two points *)
Inductive mark := MBox (p1 p2 : Z * Z) | MArrow (a b : Z * Z).

(** the title of a conductor, extraction_reporter.py L328-329 *)
Definition conductor_title (c : conductor) : string :=
  NX_Model.nat_str (co_layer c) ++ ": " ++ co_canonical c ++ " (LVS " ++ co_lvs c ++ "), " ++ show_round 3 (co_resistance c) ++ " mΩ/µm^2".
(** the title of a via, extraction_reporter.py L332-338; [None] is the KeyError of layer_by_id *)
Definition via_title (names : dict nat string) (v : via) : option string :=
  match dget names (vi_bottom v), dget names (vi_top v) with
  | Some bot, Some top => Some (NX_Model.nat_str (vi_layer v) ++ ": " ++ vi_canonical v ++ " (LVS " ++ vi_lvs v ++ ", " ++ bot ++ "↔︎" ++ top
                                ++ "), " ++ show_round 3 (vi_resistance v) ++ " mΩ/µm^2")
  | _, _ => None
  end.
(** cat_rex_request and cat_rex_tech, extraction_reporter.py L67-72 *)
Definition tech_path : path := ["[R] Extraction Request"; "[R] Extraction Tech"].
(** the loop over the vias, extraction_reporter.py L331-339 *)
Fixpoint output_vias (names : dict nat string) (vs : list via) (db : rdb mark) : option (rdb mark) :=
  match vs with
  | [] => Some db
  | v :: r => match via_title names v with
              | None => None
              | Some s => output_vias names r (create_category db (snoc tech_path "Vias") s)
              end
  end.
(** output_rex_tech, extraction_reporter.py L319-339: only categories *)
Definition output_rex_tech (db : rdb mark) (t : rextech) : option (rdb mark) :=
  let layer_by_id := comp_dict (fun c => co_layer c) (fun c => co_canonical c) (rt_conductors t) in
  let db := create_category db tech_path ("Skip simplify: " ++ (if rt_skip_simplify t then "True" else "False")) in
  let db := create_category db tech_path "Conductors" in
  let db := create_category db tech_path "Vias" in
  let db := fold_left (fun db c => create_category db (snoc tech_path "Conductors") (conductor_title c)) (rt_conductors t) db in
  output_vias layer_by_id (rt_vias t) db.

(** marker_box_for_pb_point, L378-387, and marker_box_for_node_location, L389-399 *)
Definition marker (l : location) : (Z * Z) * (Z * Z) :=
  match l with
  | LPoint (x, y) _ => ((x - 5, y - 5), (x + 5, y + 5))%Z
  | LBox p1 p2 _ => (p1, p2)
  end.
Section Result.
(** kdb.Box.center() *)
Variable center : (Z * Z) * (Z * Z) -> Z * Z.
(** output_node, L411-418 *)
Definition node_title (n : xnode) : string := xn_name n ++ ", port net " ++ xn_net n ++ ", layer " ++ xn_layer n.
(** output_node itself, L411-418 *)
Definition output_node (db : rdb mark) (category : path) (n : xnode) : rdb mark :=
  output_shapes db category (node_title n) [MBox (fst (marker (xn_location n))) (snd (marker (xn_location n)))].
(** the text of a resistance, L427-430 *)
Definition ohm_text (r : Qc) : string :=
  if qleb (Q2Qc (1 # 1000)) r then show_round 3 r ++ " Ω" else show_round 6 (r * Q2Qc 1000)%Qc ++ " mΩ".
(** output_element, L420-436, with marker_arrow_between_nodes, L401-409 *)
Definition output_element (nodes : dict nat xnode) (category : path) (db : rdb mark) (e : kelement) : option (rdb mark) :=
  match dget nodes (ke_a e), dget nodes (ke_b e) with
  | Some a, Some b =>
      let title := xn_name a ++ " (" ++ xn_layer a ++ ") ↔︎ " ++ xn_name b ++ " (" ++ xn_layer b ++ "): " ++ ohm_text (ke_resistance e) in
      Some (output_shapes db category title [MArrow (center (marker (xn_location a))) (center (marker (xn_location b)))])
  | _, _ => None
  end.
(** the loop over the elements, L370-371 *)
Fixpoint output_elements (nodes : dict nat xnode) (category : path) (es : list kelement) (db : rdb mark) : option (rdb mark) :=
  match es with
  | [] => Some db
  | e :: r => match output_element nodes category db e with None => None | Some db => output_elements nodes category r db end
  end.
(** output_rex_result_network, L360-371 *)
Definition output_network (db : rdb mark) (w : xnetwork) : option (rdb mark) :=
  let p0 := ["[R] Extraction Result"; "Networks"] in
  let db := create_category db p0 ("Net " ++ xw_net w) in
  let p1 := snoc p0 ("Net " ++ xw_net w) in
  let db := create_category db p1 "Nodes" in
  let db := create_category db p1 "Elements" in
  let db := fold_left (fun db n => output_node db (snoc p1 "Nodes") n) (xw_nodes w) db in
  output_elements (comp_dict (fun n => xn_id n) (fun n => n) (xw_nodes w)) (snoc p1 "Elements") (xw_elements w) db.
(** output_rex_result, L373-376 *)
Fixpoint output_rex_result (ws : list xnetwork) (db : rdb mark) : option (rdb mark) :=
  match ws with
  | [] => Some db
  | w :: r => match output_network db w with None => None | Some db => output_rex_result r db end
  end.
End Result.
