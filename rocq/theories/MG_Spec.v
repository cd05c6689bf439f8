(** What a line of Magic's .ext and .res.ext files says, in terms of its text. *)
From Coq Require Import String Ascii ZArith QArith Qcanon DecimalString.
From Verif Require Import PyBase PyLib PyStr PyRe MG_Model.
Local Open Scope string_scope.

(** a non-empty text of letters, digits and underscores *)
Definition word (s : string) : Prop := s <> "" /\ all_chars isword s = true.
(** the same, also with points and backslashes *)
Definition dotted (s : string) : Prop :=
  s <> "" /\ all_chars (fun c => isword c || Ascii.eqb c "."%char || Ascii.eqb c "\"%char) s = true.
(** decimal notation of an integer, leading zeros allowed *)
Definition integer (s : string) (z : Z) : Prop := exists d, NilZero.int_of_string s = Some d /\ z = Z.of_int d.
Definition natural (s : string) (z : Z) : Prop := exists d, NilZero.uint_of_string s = Some d /\ z = Z.of_uint d.
Definition quoted (s : string) : string := String """" (s ++ String """" "").

(** port "<net>" <nr> <x> <y> <x> <y> <layer> *)
Definition port_line (l : string) (p : port) : Prop :=
  exists nr k x1 y1 x2 y2,
    l = "port " ++ quoted (p_net p) ++ " " ++ nr ++ " " ++ x1 ++ " " ++ y1 ++ " " ++ x2 ++ " " ++ y2 ++ " " ++ p_layer p /\
    word (p_net p) /\ natural nr k /\ integer x1 (p_xb p) /\ integer y1 (p_yb p) /\
    integer x2 (p_xt p) /\ integer y2 (p_yt p) /\ word (p_layer p).
(** node "<net>" <R> <C> <x> <y> <layer> <more>, or substrate instead of node *)
Definition node_line (l : string) (n : node) : Prop :=
  exists kind r c x y more,
    l = kind ++ " " ++ quoted (n_net n) ++ " " ++ r ++ " " ++ c ++ " " ++ x ++ " " ++ y ++ " " ++ n_layer n ++ " " ++ more /\
    (kind = "node" \/ kind = "substrate") /\ word (n_net n) /\ natural r (n_r n) /\ natural c (n_c n) /\
    integer x (n_x n) /\ integer y (n_y n) /\ word (n_layer n).
(** device <type> <model> <x> <y> <x> <y> <more> *)
Definition device_text (l : string) (d : device) : Prop :=
  exists x1 y1 x2 y2 more,
    l = "device " ++ d_type d ++ " " ++ d_model d ++ " " ++ x1 ++ " " ++ y1 ++ " " ++ x2 ++ " " ++ y2 ++ " " ++ more /\
    word (d_type d) /\ word (d_model d) /\ integer x1 (d_xb d) /\ integer y1 (d_yb d) /\
    integer x2 (d_xt d) /\ integer y2 (d_yt d).
(** The device types of the program. *)
Definition magic_types : list string :=
  ["fet"; "mosfet"; "asymmetric"; "bjt"; "subckt"; "rsubckt"; "msubckt"; "csubckt"; "devres"; "devcap"; "devcaprev";
   "vsource"; "diode"; "pdiode"; "ndiode"].
Definition device_line (l : string) (d : device) : Prop := device_text l d /\ In (d_type d) magic_types.
Definition unknown_device (l : string) : Prop := exists d, device_text l d /\ ~ In (d_type d) magic_types.
(** rnode "<name>" <R> <C> <x> <y> 0 *)
Definition rnode_line (l : string) (n : rnode) : Prop :=
  exists r c x y,
    l = "rnode " ++ quoted (r_name n) ++ " " ++ r ++ " " ++ c ++ " " ++ x ++ " " ++ y ++ " 0" /\
    dotted (r_name n) /\ integer r (r_r n) /\ integer c (r_c n) /\ integer x (r_x n) /\ integer y (r_y n).
(** a decimal number: digits, perhaps a point among them, perhaps a minus sign in front *)
Definition magnitude (s : string) (q : Qc) : Prop :=
  exists a b k, (s = a ++ "." ++ b \/ s = a /\ b = "") /\ natural (a ++ b) k /\
    q = Q2Qc (inject_Z k / inject_Z (10 ^ Z.of_nat (String.length b))).
Definition decimal (s : string) (q : Qc) : Prop :=
  magnitude s q \/ exists t, s = "-" ++ t /\ magnitude t (- q).
(** resist "<name>" "<name>" <ohm> *)
Definition resistor_line (l : string) (t : resistor) : Prop :=
  exists v, l = "resist " ++ quoted (t_node1 t) ++ " " ++ quoted (t_node2 t) ++ " " ++ v /\
    dotted (t_node1 t) /\ dotted (t_node2 t) /\ decimal v (t_ohm t).
(** a line like that with digits, points and backslashes that are no number *)
Definition bad_resistor (l : string) : Prop :=
  exists n1 n2 v w, l = "resist " ++ quoted n1 ++ " " ++ quoted n2 ++ " " ++ v /\ dotted n1 /\ dotted n2 /\
    (v = w \/ v = "-" ++ w) /\ w <> "" /\
    all_chars (fun c => isdigit c || Ascii.eqb c "."%char || Ascii.eqb c "\"%char) w = true /\
    forall q, ~ decimal v q.

(** the lines that say something, in order *)
Inductive picks {A} (says : string -> A -> Prop) : list string -> list A -> Prop :=
| picks_nil : picks says [] []
| picks_hit l a ls r : says l a -> picks says ls r -> picks says (l :: ls) (a :: r)
| picks_miss l ls r : (forall a, ~ says l a) -> picks says ls r -> picks says (l :: ls) r.
(** the lines of a text, without the white space around them *)
Definition lines (text : string) : list string := map strip (readlines text).

(** * Files as Magic writes them *)
Inductive entry :=
| EPort (nr : N) (p : port)
| ENode (substrate : bool) (n : node) (more : string)
| EDevice (d : device) (more : string)
| EOther (l : string).
(** decimal notation *)
Definition dec (z : Z) : string := NilZero.string_of_int (Z.to_int z).
Definition entry_line (e : entry) : string :=
  match e with
  | EPort nr p => "port " ++ quoted (p_net p) ++ " " ++ dec (Z.of_N nr) ++ " " ++ dec (p_xb p) ++ " " ++ dec (p_yb p) ++ " " ++
                  dec (p_xt p) ++ " " ++ dec (p_yt p) ++ " " ++ p_layer p
  | ENode sub n more => (if sub then "substrate" else "node") ++ " " ++ quoted (n_net n) ++ " " ++ dec (n_r n) ++ " " ++ dec (n_c n) ++
                  " " ++ dec (n_x n) ++ " " ++ dec (n_y n) ++ " " ++ n_layer n ++ " " ++ more
  | EDevice d more => "device " ++ d_type d ++ " " ++ d_model d ++ " " ++ dec (d_xb d) ++ " " ++ dec (d_yb d) ++ " " ++
                  dec (d_xt d) ++ " " ++ dec (d_yt d) ++ " " ++ more
  | EOther l => l
  end.
Definition starts (p l : string) : Prop := exists t, l = p ++ t.
Definition one_line (s : string) : Prop := all_chars notnl s = true.
Definition entry_ok (e : entry) : Prop :=
  match e with
  | EPort _ p => word (p_net p) /\ word (p_layer p)
  | ENode _ n more => word (n_net n) /\ word (n_layer n) /\ (0 <= n_r n)%Z /\ (0 <= n_c n)%Z /\
                      one_line more /\ trimmed more = true /\ more <> ""
  | EDevice d more => In (d_type d) magic_types /\ word (d_model d) /\ one_line more /\ trimmed more = true /\ more <> ""
  | EOther l => one_line l /\ trimmed l = true /\ ~ starts "port " l /\ ~ starts "node " l /\ ~ starts "substrate " l /\ ~ starts "device " l
  end.
Fixpoint file_of (es : list entry) : string :=
  match es with [] => "" | e :: r => entry_line e ++ String nl (file_of r) end.
Definition ports_of (es : list entry) : list port := flat_map (fun e => match e with EPort _ p => [p] | _ => [] end) es.
Definition nodes_of (es : list entry) : list node := flat_map (fun e => match e with ENode _ n _ => [n] | _ => [] end) es.
Definition devices_of (es : list entry) : list device := flat_map (fun e => match e with EDevice d _ => [d] | _ => [] end) es.

(** * Run directories *)
Definition has (part s : string) : Prop := exists a b, s = a ++ part ++ b.
(** a cell name that Magic can have used for a file of its own *)
Definition plain_cell (c : string) : Prop :=
  one_line c /\ ~ has ".ext" c /\ ~ (exists a, c = a ++ ".res").
(** every .ext file is the main or the resistance file of a cell *)
Definition plain_dir (D : list (string * string)) : Prop :=
  NoDup (map fst D) /\
  forall f, In f D -> ends_with ".ext" (fst f) = true ->
    exists c, plain_cell c /\ (fst f = c ++ ".ext" \/ fst f = c ++ ".res.ext").
(** what the directory says about a cell; [None]: there is no main file *)
Definition expected (D : list (string * string)) (c : string) (r : option cellext) : Prop :=
  (r = None /\ ~ In (c ++ ".ext") (map fst D)) \/
  exists t x y, r = Some (Build_cellext x y) /\ In (c ++ ".ext", t) D /\ parse_ext t = Some x /\
    ((y = None /\ ~ In (c ++ ".res.ext") (map fst D)) \/
     exists u z, y = Some z /\ In (c ++ ".res.ext", u) D /\ parse_res u = Some z).
