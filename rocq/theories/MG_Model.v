(** Reading Magic's extraction files: klayout_pex/magic/magic_ext_file_parser.py L44-153,
    magic_ext_data_structures.py L34-128.
    An exception (ValueError of DeviceType(...) or float(...), Exception of an empty run) is [None]. *)
From Coq Require Import String Ascii ZArith QArith Qcanon DecimalString.
From Verif Require Import PyBase PyLib PyStr PyRe.
Local Open Scope string_scope.

(** magic_ext_data_structures.py L37-44 *)
Record port := { p_net : string; p_xb : Z; p_yb : Z; p_xt : Z; p_yt : Z; p_layer : string }.
(** magic_ext_data_structures.py L47-54 *)
Record node := { n_net : string; n_r : Z; n_c : Z; n_x : Z; n_y : Z; n_layer : string }.
(** magic_ext_data_structures.py L75-82; the device type by its string *)
Record device := { d_type : string; d_model : string; d_xb : Z; d_yb : Z; d_xt : Z; d_yt : Z }.
(** magic_ext_data_structures.py L85-90, without the path *)
Record ext := { x_ports : list port; x_nodes : list node; x_devices : list device }.
(** magic_ext_data_structures.py L93-99 *)
Record rnode := { r_name : string; r_r : Z; r_c : Z; r_x : Z; r_y : Z }.
(** magic_ext_data_structures.py L102-106 *)
Record resistor := { t_node1 : string; t_node2 : string; t_ohm : Qc }.
(** magic_ext_data_structures.py L109-113, without the path *)
Record resext := { y_rnodes : list rnode; y_resistors : list resistor }.
(** magic_ext_data_structures.py L119-122 *)
Record cellext := { c_ext : ext; c_res : option resext }.

(** magic_ext_data_structures.py L57-72: the values of the enumeration *)
Definition device_types : list string :=
  ["fet"; "mosfet"; "asymmetric"; "bjt"; "devres"; "devcap"; "devcaprev"; "vsource"; "diode"; "pdiode"; "ndiode";
   "subckt"; "rsubckt"; "msubckt"; "csubckt"].

(** int(s); only called for texts that -?\d+ matches.  Decimal notation as in the standard library. *)
Definition py_int (s : string) : option Z := option_map Z.of_int (NilZero.int_of_string s).
(** float(s), only called for texts that -?[\d\\.]+ matches: a sign, then digits with at most one point and at
    least one digit.  Simplification: the exact decimal value, not the nearest binary fraction. *)
Definition py_ufloat (s : string) : option Qc :=
  let val a b := option_map (fun d => Q2Qc (inject_Z (Z.of_uint d) / inject_Z (10 ^ Z.of_nat (String.length b))))
                            (NilZero.uint_of_string (a ++ b)) in
  match split_on "."%char s with
  | [a] => val a ""
  | [a; b] => val a b
  | _ => None
  end.
Definition py_float (s : string) : option Qc :=
  match s with
  | String c t => if Ascii.eqb c "-"%char then option_map Qcopp (py_ufloat t) else py_ufloat s
  | EmptyString => None
  end.

(** * The patterns *)
Definition quote : string := String (chr 34) "".
(** \d+ *)
Definition r_nat (n : string) : re := Grp n (Plus isdigit).
(** -?\d+ *)
Definition r_int (n : string) : re := Grp n (Seq (Opt (Lit "-")) (Plus isdigit)).
(** \w+ *)
Definition r_word (n : string) : re := Grp n (Plus isword).
(** [\w\\.]: a word character, a backslash or a point *)
Definition isname (c : ascii) : bool := isword c || Ascii.eqb c (chr 92) || Ascii.eqb c "."%char.
(** [\d\\.] *)
Definition isnumeral (c : ascii) : bool := isdigit c || Ascii.eqb c (chr 92) || Ascii.eqb c "."%char.
Definition r_name_ (n : string) : re := Grp n (Plus isname).
Fixpoint seqs (l : list re) : re := match l with [] => Lit "" | [r] => r | r :: l' => Seq r (seqs l') end.
Definition sp : re := Lit " ".

(** magic_ext_file_parser.py L93 *)
Definition port_re : re :=
  seqs [Lit ("port " ++ quote); r_word "net"; Lit (quote ++ " "); r_nat "nr"; sp; r_int "x_bot"; sp; r_int "y_bot"; sp;
        r_int "x_top"; sp; r_int "y_top"; sp; r_word "layer"; End].
(** magic_ext_file_parser.py L104 *)
Definition node_re : re :=
  seqs [Alt (Lit "node") (Lit "substrate"); Lit (" " ++ quote); r_word "net"; Lit (quote ++ " "); r_nat "int_r"; sp;
        r_nat "fin_c"; sp; r_int "x_bot"; sp; r_int "y_bot"; sp; r_word "layer"; sp; Star notnl; End].
(** magic_ext_file_parser.py L115 *)
Definition device_re : re :=
  seqs [Lit "device "; r_word "type"; sp; r_word "model"; sp; r_int "x_bot"; sp; r_int "y_bot"; sp;
        r_int "x_top"; sp; r_int "y_top"; sp; Star notnl; End].
(** magic_ext_file_parser.py L136 *)
Definition rnode_re : re :=
  seqs [Lit ("rnode " ++ quote); r_name_ "name"; Lit (quote ++ " "); r_int "int_r"; sp; r_int "fin_c"; sp;
        r_int "x_bot"; sp; r_int "y_bot"; Lit " 0"; End].
(** magic_ext_file_parser.py L146 *)
Definition resist_re : re :=
  seqs [Lit ("resist " ++ quote); r_name_ "node1"; Lit (quote ++ " " ++ quote); r_name_ "node2"; Lit (quote ++ " ");
        Grp "value" (Seq (Opt (Lit "-")) (Plus isnumeral)); End].
(** magic_ext_file_parser.py L53; the pattern is not anchored at the end *)
Definition file_re : re :=
  seqs [Grp "cell" (Lazy notnl); Opt (Grp "res" (Lit ".res")); Lit ".ext"].

(** m.group(n) of a group that took part in the match *)
Definition grp (g : dict string string) (n : string) : string := match dget g n with Some v => v | None => "" end.
Definition gint (g : dict string string) (n : string) : option Z := py_int (grp g n).

(** * One line; [None] is an exception, [Some None] no match *)
(** magic_ext_file_parser.py L92-101 *)
Definition line_port (l : string) : option (option port) :=
  match re_match port_re l with
  | None => Some None
  | Some g => match gint g "x_bot", gint g "y_bot", gint g "x_top", gint g "y_top" with
              | Some a, Some b, Some c, Some d => Some (Some (Build_port (grp g "net") a b c d (grp g "layer")))
              | _, _, _, _ => None
              end
  end.
(** magic_ext_file_parser.py L103-112 *)
Definition line_node (l : string) : option (option node) :=
  match re_match node_re l with
  | None => Some None
  | Some g => match gint g "int_r", gint g "fin_c", gint g "x_bot", gint g "y_bot" with
              | Some a, Some b, Some c, Some d => Some (Some (Build_node (grp g "net") a b c d (grp g "layer")))
              | _, _, _, _ => None
              end
  end.
(** magic_ext_file_parser.py L114-125 *)
Definition line_device (l : string) : option (option device) :=
  match re_match device_re l with
  | None => Some None
  | Some g => if negb (existsb (String.eqb (grp g "type")) device_types) then None else
              match gint g "x_bot", gint g "y_bot", gint g "x_top", gint g "y_top" with
              | Some a, Some b, Some c, Some d => Some (Some (Build_device (grp g "type") (grp g "model") a b c d))
              | _, _, _, _ => None
              end
  end.
(** magic_ext_file_parser.py L135-143 *)
Definition line_rnode (l : string) : option (option rnode) :=
  match re_match rnode_re l with
  | None => Some None
  | Some g => match gint g "int_r", gint g "fin_c", gint g "x_bot", gint g "y_bot" with
              | Some a, Some b, Some c, Some d => Some (Some (Build_rnode (grp g "name") a b c d))
              | _, _, _, _ => None
              end
  end.
(** magic_ext_file_parser.py L145-151 *)
Definition line_resistor (l : string) : option (option resistor) :=
  match re_match resist_re l with
  | None => Some None
  | Some g => match py_float (grp g "value") with
              | Some v => Some (Some (Build_resistor (grp g "node1") (grp g "node2") v))
              | None => None
              end
  end.

(** * Files *)
(** list.append under a successful match *)
Definition push {A} (acc : list A) (x : option (option A)) : option (list A) :=
  match x with None => None | Some None => Some acc | Some (Some a) => Some (acc ++ [a])%list end.
(** magic_ext_file_parser.py L89-125: one turn of the loop; an exception ends it *)
Definition ext_step (acc : option ext) (line : string) : option ext :=
  match acc with
  | None => None
  | Some d =>
      let l := strip line in
      match push (x_ports d) (line_port l), push (x_nodes d) (line_node l), push (x_devices d) (line_device l) with
      | Some p, Some n, Some v => Some (Build_ext p n v)
      | _, _, _ => None
      end
  end.
(** magic_ext_file_parser.py L83-126 *)
Definition parse_ext (text : string) : option ext := fold_left ext_step (readlines text) (Some (Build_ext [] [] [])).
(** magic_ext_file_parser.py L134-151 *)
Definition res_step (acc : option resext) (line : string) : option resext :=
  match acc with
  | None => None
  | Some d =>
      let l := strip line in
      match push (y_rnodes d) (line_rnode l), push (y_resistors d) (line_resistor l) with
      | Some n, Some r => Some (Build_resext n r)
      | _, _ => None
      end
  end.
(** magic_ext_file_parser.py L129-153 *)
Definition parse_res (text : string) : option resext := fold_left res_step (readlines text) (Some (Build_resext [] [])).

(** * The run directory: names and texts in the order of the listing, no subdirectory *)
Fixpoint ends_with (suf s : string) : bool :=
  String.eqb s suf || match s with EmptyString => false | String _ t => ends_with suf t end.
(** magic_ext_file_parser.py L48: run_dir.glob('*.ext') *)
Definition ext_files (D : list (string * string)) : list (string * string) :=
  filter (fun f => ends_with ".ext" (fst f)) D.
(** magic_ext_file_parser.py L54-65: the files by cell name, main and resistance *)
Definition sort_file (acc : dict string string * dict string string) (f : string * string) :=
  match re_match file_re (fst f) with
  | None => acc
  | Some g => match dget g "res" with
              | Some _ => (fst acc, dset (snd acc) (grp g "cell") (snd f))
              | None => (dset (fst acc) (grp g "cell") (snd f), snd acc)
              end
  end.
(** magic_ext_file_parser.py L70-75 *)
Definition cell_data (res : dict string string) (c t : string) : option cellext :=
  match parse_ext t with
  | None => None
  | Some x => match dget res c with
              | None => Some (Build_cellext x None)
              | Some u => match parse_res u with None => None | Some y => Some (Build_cellext x (Some y)) end
              end
  end.
Definition cell_step (res : dict string string) (acc : option (dict string cellext)) (f : string * string) :=
  match acc with
  | None => None
  | Some cells => match cell_data res (fst f) (snd f) with
                  | None => None
                  | Some d => Some (dset cells (fst f) d)
                  end
  end.
(** magic_ext_file_parser.py L44-80 *)
Definition parse_run (D : list (string * string)) : option (dict string cellext) :=
  let (main, res) := fold_left sort_file (ext_files D) ([], []) in
  match main with
  | [] => None
  | _ => fold_left (cell_step res) main (Some [])
  end.
