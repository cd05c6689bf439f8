(** The report on a Magic run: klayout_pex/magic/magic_log_analyzer.py, and its use in klayout_pex/kpex_cli.py L575-630.
    A category is its path, the list of names from the top.  Simplified: create_category with the path of an existing category
    gives that category. *)
From Coq Require Import String ZArith.
From Verif Require Import PyBase PyLib PyStr MG_Model.
From Verif Require NX_Model.
Local Open Scope string_scope.
Local Open Scope list_scope.

Notation path := (list string).
(** a box in the report, in micrometres *)
Record dbox := DBox { b_left : Qc; b_bottom : Qc; b_right : Qc; b_top : Qc }.
(** one item of the report: its cell, its category, its shape *)
Record item := Item { i_cell : string; i_cat : path; i_box : dbox }.
Record rdb := Rdb { rd_cells : list string; rd_cats : list path; rd_items : list item }.

(** kdb.Box(l, b, r, t) of four numbers in units of the layout: it is put the right way round *)
Record box := Box { left : Z; bottom : Z; right : Z; top : Z }.
Definition mk_box (l b r t : Z) : box := Box (Z.min l r) (Z.min b t) (Z.max l r) (Z.max b t).

(** ReportDatabase.create_cell, create_category *)
Definition create_cell (db : rdb) (name : string) : rdb := Rdb (rd_cells db ++ [name]) (rd_cats db) (rd_items db).
Definition create_category (db : rdb) (parent : path) (name : string) : rdb * path :=
  (Rdb (rd_cells db) (rd_cats db ++ [parent ++ [name]]) (rd_items db), parent ++ [name]).

Section Report.
(** [to_int] is what the binding of KLayout makes of a float where it wants an integer; [float_text] is the text of a float in an
    f-string.  Simplified: the arithmetic on floats is exact. *)
Variables (to_int : Qc -> Z) (float_text : Qc -> string).
(** magic_log_analyzer.py L48, L52: the size of a database unit in micrometres *)
Variable dbu : Qc.

Definition um (z : Z) : Qc := Q2Qc (inject_Z z) * dbu.
(** kdb.CplxTrans(mag=dbu) on a box *)
Definition scaled (b : box) : dbox := DBox (um (left b)) (um (bottom b)) (um (right b)) (um (top b)).
(** ReportDatabase.create_items(cell, category, CplxTrans(mag=dbu), shapes), magic_log_analyzer.py L80-81 and others: one item for each shape *)
Definition create_items (db : rdb) (cell : string) (cat : path) (shapes : list box) : rdb :=
  Rdb (rd_cells db) (rd_cats db) (rd_items db ++ map (fun b => Item cell cat (scaled b)) shapes).

(** magic_log_analyzer.py L68 and the divisions of L76-79 and others *)
Definition coord (z : Z) : Qc := Q2Qc (inject_Z z) / Q2Qc (200 # 1) / dbu.
(** kdb.Box(...) of floats, magic_log_analyzer.py L76-79, L95-98 *)
Definition box_of (l b r t : Qc) : box := mk_box (to_int l) (to_int b) (to_int r) (to_int t).
(** magic_log_analyzer.py L70-71 *)
Definition box_for_point_dbu (x y : Qc) : box := box_of x y (x + Q2Qc (20 # 1)) (y + Q2Qc (20 # 1)).

(** magic_log_analyzer.py L73-81 *)
Definition show_port (cell : string) (ports_cat : path) (db : rdb) (p : port) : rdb :=
  let (db, port_cat) := create_category db ports_cat (p_net p ++ " (" ++ p_layer p ++ ")")%string in
  create_items db cell port_cat [box_of (coord (p_xb p)) (coord (p_yb p)) (coord (p_xt p)) (coord (p_yt p))].
(** magic_log_analyzer.py L83-89 *)
Definition show_node (cell : string) (nodes_cat : path) (db : rdb) (n : node) : rdb :=
  let (db, node_cat) := create_category db nodes_cat (n_net n ++ " (" ++ n_layer n ++ ")")%string in
  create_items db cell node_cat [box_for_point_dbu (coord (n_x n)) (coord (n_y n))].
(** magic_log_analyzer.py L91-100 *)
Definition show_device (cell : string) (devices_cat : path) (db : rdb) (d : device) : rdb :=
  let (db, device_cat) := create_category db devices_cat ("Type=" ++ d_type d ++ " Model=" ++ d_model d)%string in
  create_items db cell device_cat [box_of (coord (d_xb d)) (coord (d_yb d)) (coord (d_xt d)) (coord (d_yt d))].
(** magic_log_analyzer.py L103-110 *)
Definition show_rnode (cell : string) (rnodes_cat : path) (db : rdb) (n : rnode) : rdb :=
  let (db, rnode_cat) := create_category db rnodes_cat (r_name n) in
  create_items db cell rnode_cat [box_for_point_dbu (coord (r_x n)) (coord (r_y n))].
(** magic_ext_data_structures.py L115-116 *)
Definition rnodes_by_name (r : resext) (name : string) : list rnode := filter (fun n => String.eqb (r_name n) name) (y_rnodes r).
(** magic_log_analyzer.py L112-122; the number of the resistor goes along *)
Definition show_resistor (cell : string) (resistors_cat : path) (y : resext) (s : rdb * nat) (r : resistor) : rdb * nat :=
  let (db, idx) := s in
  let (db, res_cat) := create_category db resistors_cat
    ("#" ++ NX_Model.nat_str idx ++ " " ++ t_node1 r ++ "↔︎" ++ t_node2 r ++ " = " ++ float_text (t_ohm r) ++ " Ω")%string in
  (create_items db cell res_cat
     (map (fun n => box_for_point_dbu (coord (r_x n)) (coord (r_y n))) (rnodes_by_name y (t_node1 r) ++ rnodes_by_name y (t_node2 r))), S idx).

(** magic_log_analyzer.py L58-122 *)
Definition analyze_cell (magic_category : path) (db : rdb) (cell : string) (cell_data : cellext) : rdb :=
  let db := create_cell db cell in
  let (db, ports_cat) := create_category db magic_category "Ports" in
  let (db, nodes_cat) := create_category db magic_category "Nodes" in
  let (db, devices_cat) := create_category db magic_category "Devices" in
  let (db, rnodes_cat) := create_category db magic_category "Resistor Nodes" in
  let (db, resistors_cat) := create_category db magic_category "Resistors" in
  let db := fold_left (show_port cell ports_cat) (x_ports (c_ext cell_data)) db in
  let db := fold_left (show_node cell nodes_cat) (x_nodes (c_ext cell_data)) db in
  let db := fold_left (show_device cell devices_cat) (x_devices (c_ext cell_data)) db in
  match c_res cell_data with
  | None => db
  | Some y =>
      let db := fold_left (show_rnode cell rnodes_cat) (y_rnodes y) db in
      fst (fold_left (show_resistor cell resistors_cat y) (y_resistors y) (db, 0%nat))
  end.

(** magic_log_analyzer.py L45-56, and ReportDatabase('') *)
Definition analyze (cells : dict string cellext) : rdb :=
  let (db, magic_category) := create_category (Rdb [] [] []) [] "MAGIC Extraction" in
  fold_left (fun db c => analyze_cell magic_category db (fst c) (snd c)) cells db.
End Report.

(** ** The two ways to get a report *)
(** A directory: file names and texts *)
Notation directory := (dict string string).
(** files written over a directory *)
Definition overwritten (D W : directory) : directory := fold_left (fun D f => dset D (fst f) (snd f)) W D.

(** kpex_cli.py L591-621, for GDS input: the run directory is made if it is not there and never cleared; Magic runs (the files [W] it writes,
    and whether its exit status is 0); the directory is parsed, and the report is made with the database unit of the layout.
    [None] is an exception.  Left out: the script, the log, and the netlist that is printed. *)
Definition magic_report (to_int : Qc -> Z) (float_text : Qc -> string) (dbu : Qc) (D W : directory) (ok : bool) : option rdb :=
  if ok then option_map (analyze to_int float_text dbu) (parse_run (overwritten D W)) else None.

(** magic_log_analyzer.py L147-153: the path of the report. The default that L151 works out is dropped. [None] for the outer option: the
    directory does not exist *)
Definition output_rdb_path (isdir : bool) (magic_log_dir_path : string) (out : option string) : option (option string) :=
  if isdir then Some out else None.
(** magic_log_analyzer.py L156-166 *)
Definition main (to_int : Qc -> Z) (float_text : Qc -> string) (isdir : bool) (dir : string) (D : directory) (out : option string)
    : option (rdb * option string) :=
  match output_rdb_path isdir dir out with
  | None => None
  | Some p => option_map (fun cells => (analyze to_int float_text (Q2Qc (1 # 1000)) cells, p)) (parse_run D)
  end.
