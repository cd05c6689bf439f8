(** What the report on a Magic run has to show: C89. *)
From Coq Require Import String ZArith.
From Verif Require Import PyBase PyLib PyStr MG_Model MG_Spec ML_Model.
From Verif Require NX_Model.
Local Open Scope string_scope.
Local Open Scope list_scope.

(** A place in Magic's units: an area given by two corners, or a point. *)
Inductive spot := Area (x1 y1 x2 y2 : Z) | Point (x y : Z).
(** 200 of Magic's units are one micrometre *)
Definition micro (z : Z) : Qc := Q2Qc (z # 200).
(** closer than one database unit *)
Definition near (dbu a b : Qc) : Prop := b - dbu < a /\ a < b + dbu.
(** a box shows a place: an area as it is, a point as the lower left corner of a square of 20 database units *)
Definition twenty : Qc := Q2Qc (20 # 1).
Definition shows (dbu : Qc) (s : spot) (b : dbox) : Prop :=
  match s with
  | Area x1 y1 x2 y2 => near dbu (b_left b) (micro (Z.min x1 x2)) /\ near dbu (b_bottom b) (micro (Z.min y1 y2)) /\
                        near dbu (b_right b) (micro (Z.max x1 x2)) /\ near dbu (b_top b) (micro (Z.max y1 y2))
  | Point x y => near dbu (b_left b) (micro x) /\ near dbu (b_bottom b) (micro y) /\
                 near dbu (b_right b) (micro x + twenty * dbu) /\ near dbu (b_top b) (micro y + twenty * dbu)
  end.
Definition shows_exactly (dbu : Qc) (s : spot) (b : dbox) : Prop :=
  b = match s with
      | Area x1 y1 x2 y2 => DBox (micro (Z.min x1 x2)) (micro (Z.min y1 y2)) (micro (Z.max x1 x2)) (micro (Z.max y1 y2))
      | Point x y => DBox (micro x) (micro y) (micro x + twenty * dbu) (micro y + twenty * dbu)
      end.

(** KLayout's coordinates have 32 bits: the place must be within reach, and numbers within reach are made integers by going up or
    down by less than one. *)
Definition reach : Qc := Q2Qc (2147483647 # 1).
Definition close_by (dbu : Qc) (z : Z) : Prop := - ((reach - twenty) * dbu) <= micro z /\ micro z <= (reach - twenty) * dbu.
Definition within (dbu : Qc) (s : spot) : Prop :=
  match s with
  | Area x1 y1 x2 y2 => close_by dbu x1 /\ close_by dbu y1 /\ close_by dbu x2 /\ close_by dbu y2
  | Point x y => close_by dbu x /\ close_by dbu y
  end.
Definition casts (to_int : Qc -> Z) : Prop :=
  forall q, - reach <= q -> q <= reach -> q - 1 < Q2Qc (inject_Z (to_int q)) /\ Q2Qc (inject_Z (to_int q)) < q + 1.

Section Titles.
Variable float_text : Qc -> string.

(** the category of each kind of entry *)
Definition port_cat (p : port) : path := ["MAGIC Extraction"; "Ports"; p_net p ++ " (" ++ p_layer p ++ ")"]%string.
Definition node_cat (n : node) : path := ["MAGIC Extraction"; "Nodes"; n_net n ++ " (" ++ n_layer n ++ ")"]%string.
Definition device_cat (d : device) : path := ["MAGIC Extraction"; "Devices"; "Type=" ++ d_type d ++ " Model=" ++ d_model d]%string.
Definition rnode_cat (n : rnode) : path := ["MAGIC Extraction"; "Resistor Nodes"; r_name n].
Definition resistor_cat (k : nat) (t : resistor) : path :=
  ["MAGIC Extraction"; "Resistors";
   "#" ++ NX_Model.nat_str k ++ " " ++ t_node1 t ++ "↔︎" ++ t_node2 t ++ " = " ++ float_text (t_ohm t) ++ " Ω"]%string.

Definition port_spot (p : port) : spot := Area (p_xb p) (p_yb p) (p_xt p) (p_yt p).
Definition node_spot (n : node) : spot := Point (n_x n) (n_y n).
Definition device_spot (d : device) : spot := Area (d_xb d) (d_yb d) (d_xt d) (d_yt d).
Definition rnode_spot (n : rnode) : spot := Point (r_x n) (r_y n).

(** The run directory [D] says that there is something of cell [c] at a place, to be shown in a category.  A resistor is shown at each
    of its ends, and it is numbered within its file. *)
Inductive says (D : list (string * string)) (c : string) : path -> spot -> Prop :=
| says_port t l p : In ((c ++ ".ext")%string, t) D -> In l (lines t) -> port_line l p -> says D c (port_cat p) (port_spot p)
| says_node t l n : In ((c ++ ".ext")%string, t) D -> In l (lines t) -> node_line l n -> says D c (node_cat n) (node_spot n)
| says_device t l d : In ((c ++ ".ext")%string, t) D -> In l (lines t) -> device_line l d -> says D c (device_cat d) (device_spot d)
| says_rnode u l n : In (c ++ ".ext")%string (map fst D) -> In ((c ++ ".res.ext")%string, u) D -> In l (lines u) -> rnode_line l n ->
    says D c (rnode_cat n) (rnode_spot n)
| says_resistor u before l after earlier t l' n : In (c ++ ".ext")%string (map fst D) -> In ((c ++ ".res.ext")%string, u) D ->
    lines u = before ++ l :: after -> picks resistor_line before earlier -> resistor_line l t ->
    In l' (lines u) -> rnode_line l' n -> (r_name n = t_node1 t \/ r_name n = t_node2 t) ->
    says D c (resistor_cat (List.length earlier) t) (rnode_spot n).

(** The entries of the cells one after the other: for each cell ports, nodes, devices, then resistor nodes and resistors. *)
Definition numbered {A} (l : list A) : list (nat * A) := combine (seq 0 (List.length l)) l.
Definition named (y : resext) (name : string) : list rnode := filter (fun n => String.eqb (r_name n) name) (y_rnodes y).
Definition cell_listing (c : string) (d : cellext) : list (string * path * spot) :=
  map (fun p => (c, port_cat p, port_spot p)) (x_ports (c_ext d)) ++
  map (fun n => (c, node_cat n, node_spot n)) (x_nodes (c_ext d)) ++
  map (fun v => (c, device_cat v, device_spot v)) (x_devices (c_ext d)) ++
  match c_res d with
  | None => []
  | Some y => map (fun n => (c, rnode_cat n, rnode_spot n)) (y_rnodes y) ++
              flat_map (fun kt => map (fun n => (c, resistor_cat (fst kt) (snd kt), rnode_spot n))
                                      (named y (t_node1 (snd kt)) ++ named y (t_node2 (snd kt)))) (numbered (y_resistors y))
  end.
Definition listing (cells : dict string cellext) : list (string * path * spot) := flat_map (fun cd => cell_listing (fst cd) (snd cd)) cells.
(** The categories that are made, one after the other: each kind has its own, and in it each object, even a resistor none of whose nodes
    is in the file. *)
Definition cell_titles (d : cellext) : list path :=
  map (fun k => ["MAGIC Extraction"; k]) ["Ports"; "Nodes"; "Devices"; "Resistor Nodes"; "Resistors"] ++
  map port_cat (x_ports (c_ext d)) ++ map node_cat (x_nodes (c_ext d)) ++ map device_cat (x_devices (c_ext d)) ++
  match c_res d with
  | None => []
  | Some y => map rnode_cat (y_rnodes y) ++ map (fun kt => resistor_cat (fst kt) (snd kt)) (numbered (y_resistors y))
  end.
End Titles.

(** an item shows an entry *)
Definition renders (shows : spot -> dbox -> Prop) (e : string * path * spot) (i : item) : Prop :=
  i_cell i = fst (fst e) /\ i_cat i = snd (fst e) /\ shows (snd e) (i_box i).
(** closer than a database unit if it is within reach *)
Definition about (dbu : Qc) (s : spot) (b : dbox) : Prop := within dbu s -> shows dbu s b.
Definition exactly (dbu : Qc) (s : spot) (b : dbox) : Prop := within dbu s -> shows_exactly dbu s b.

(** ** The unit of the file *)
(** In the format of Magic a line "scale <r> <c> <l>" says that lengths in this file count [l] hundredths of a micrometre. *)
Definition scale_line (line : string) (l : Qc) : Prop :=
  exists r c s a b, line = ("scale " ++ r ++ " " ++ c ++ " " ++ s)%string /\ decimal r a /\ decimal c b /\ decimal s l.
