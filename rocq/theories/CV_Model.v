(** Model of convert_layout_pdk.py: moving a layout from one of the shipped PDKs to the other. *)
From Coq Require Import String Ascii ZArith.
From Verif Require Import PyBase PyLib PyStr PyRe CV_Lyp.
Local Open Scope string_scope.
Local Open Scope list_scope.

(** GDSPair, L59-65; Layer, L68-72 *)
Definition pair : Type := Z * Z.
Record layer := Layer { l_layer : string; l_purpose : option string; l_pair : pair }.
#[export] Instance layer_eqdec : EqDec layer.
Proof.
  intros [a p q] [a' p' q']. destruct (eq_dec a a') as [<-|N]; [|right; congruence]. destruct (eq_dec q q') as [<-|N]; [|right; congruence].
  destruct p as [p|], p' as [p'|]; [destruct (eq_dec p p') as [<-|N]; [now left|right; congruence]|right; congruence|right; congruence|now left].
Defined.
(** Layer.lpp, L74-79: the empty text counts as no purpose *)
Definition lpp (l : layer) : string :=
  match l_purpose l with None => l_layer l | Some p => if String.eqb p "" then l_layer l else (l_layer l ++ "." ++ p)%string end.
(** LayerList.as_gds_list, L86-88 *)
Definition as_gds_list (t : list layer) : list pair := map l_pair t.
(** {key(l): value(l) for l in ls} *)
Definition comprehension {A K V} `{EqDec K} (key : A -> K) (value : A -> V) (ls : list A) : dict K V :=
  fold_left (fun d l => dset d (key l) (value l)) ls [].
(** LayerList.layer_by_lpp, L90-92.  The other two tables (L94-100) only serve messages. *)
Definition layer_by_lpp (t : list layer) : dict string layer := comprehension lpp (fun l => l) t.

(** ** parse_layers, L253-286 *)
(** L268 *)
Definition name_re : re :=
  Seq (Grp "layer" (Plus isword)) (Seq (Opt (Seq (Lit ".") (Grp "purpose" (Plus isword)))) (Seq (Opt (Seq (One isspace) (Star notnl))) End)).
(** L275 *)
Definition source_re : re := Seq (Grp "gds_layer" (Plus isdigit)) (Seq (Lit "/") (Seq (Grp "gds_datatype" (Plus isdigit)) (Seq (Star notnl) End))).
(** int(text) *)
Definition int_of (g : dict string string) (k : string) : Z := match dget g k with Some s => Z.of_nat (digits_val 0 s) | None => 0%Z end.
(** the loop body, L259-284, for the texts of <name> and <source> (both present); a text that does not match leaves the values of L262-265 *)
Definition parse_layer (e : string * string) : layer :=
  let '(name, source) := e in
  let '(layer_name, purpose) := match re_match name_re name with
    | Some g => (match dget g "layer" with Some s => s | None => "" end, dget g "purpose") | None => ("", Some "") end in
  let p := match re_match source_re source with Some g => (int_of g "gds_layer", int_of g "gds_datatype") | None => (0, 0)%Z end in
  Layer layer_name purpose p.
Definition parse_layers (lyp : list (string * string)) : list layer := map parse_layer lyp.

(** ** LayerMapping *)
Section Lookup.
(** the cached tables of the two lists, L90-92 *)
Variables (src_by_lpp dest_by_lpp : dict string layer).
(** the inner loop L122-128: the layers found, and whether one is missing *)
Fixpoint find_dest (names : list string) : list layer * bool :=
  match names with
  | [] => ([], false)
  | n :: r => let (ls, e) := find_dest r in
              match dget dest_by_lpp n with Some l => (l :: ls, e) | None => (ls, true) end
  end.
(** the loop L117-129; [errors] only matters for being empty or not *)
Fixpoint mapping_loop (m : list (string * list string)) (d : dict layer (list layer)) (errors : bool) : dict layer (list layer) * bool :=
  match m with
  | [] => (d, errors)
  | (s, ds) :: r =>
      match dget src_by_lpp s with
      | None => mapping_loop r d true
      | Some l => let (ls, e) := find_dest ds in mapping_loop r (dset d l ls) (errors || e)
      end
  end.
End Lookup.
Section Mapping.
Variables (lpp_mapping : dict string (list string)) (src_layers dest_layers : list layer).
(** layer_mapping, L112-134; [None]: the exception of L132 *)
Definition layer_mapping : option (dict layer (list layer)) :=
  let (d, errors) := mapping_loop (layer_by_lpp src_layers) (layer_by_lpp dest_layers) lpp_mapping [] false in if errors then None else Some d.
(** dest_layers_by_source_gds_pair, L136-139 *)
Definition dest_layers_by_source_gds_pair : option (dict pair (list layer)) :=
  match layer_mapping with Some d => Some (comprehension (fun e => l_pair (fst e)) snd d) | None => None end.
End Mapping.

(** ** layouts *)
(** A kdb.Layout after flattening, as a list of its layers in the order of their indexes.  Numbered layers only (as in GDS files). *)
Section Layout.
Context {shape : Type}.
Definition layout : Type := list (pair * list shape).
(** guess_technology, L203-215; numpy.argmax takes the first of the largest *)
Definition rank (l : layout) (t : list layer) : nat :=
  List.length (filter (fun li => existsb (eqb li) (as_gds_list t)) (map fst l)).
Fixpoint argmax_from (i best : nat) (best_value : nat) (l : list nat) : nat :=
  match l with [] => best | x :: r => if Nat.ltb best_value x then argmax_from (S i) i x r else argmax_from (S i) best best_value r end.
Definition argmax (l : list nat) : nat := match l with [] => O | x :: r => argmax_from 1 0 x r end.
Definition guess_technology (l : layout) (techs : list (list layer)) : nat := argmax (map (rank l) techs).

(** src_layout.layer(li), L241: the index of the layer with these numbers *)
Fixpoint index_of (li : pair) (l : layout) : nat :=
  match l with [] => O | (p, _) :: r => if eqb p li then O else S (index_of li r) end.
(** dest_layout.set_info(lyr, new_li), L245 *)
Fixpoint set_info (l : layout) (i : nat) (p : pair) : layout :=
  match l, i with [], _ => [] | (_, s) :: r, O => (p, s) :: r | e :: r, S i' => e :: set_info r i' p end.
Definition shapes_of (l : layout) (i : nat) : list shape := match nth_error l i with Some (_, s) => s | None => [] end.
(** L242-248: the first target is renamed, for the others a new layer gets a copy *)
Definition put (lyr : nat) (d : layout) (targets : list pair) : layout :=
  match targets with
  | [] => d
  | t :: r => fold_left (fun d t => d ++ [(t, shapes_of d lyr)]) r (set_info d lyr t)
  end.
Section Map.
Variables (lpp_mapping : dict string (list string)) (src_layers dest_layers : list layer).
(** L225-248 for one layer *)
Definition map_layer (src : layout) (d : option layout) (li : pair) : option layout :=
  match d, dest_layers_by_source_gds_pair lpp_mapping src_layers dest_layers with
  | Some d, Some table =>
      let targets := match dget table li with Some ls => as_gds_list ls | None => [(1000 + fst li, snd li)%Z] end in
      Some (put (index_of li src) d targets)
  | _, _ => None
  end.
(** map_gds_layers, L218-250; [None]: exception *)
Definition map_gds_layers (src : layout) : option layout := fold_left (map_layer src) (map fst src) (Some src).
End Map.
End Layout.
Arguments layout : clear implicits.

(** invert_dict, L289-295 *)
Definition invert_dict (d : dict string (list string)) : dict string (list string) :=
  fold_left (fun n e => fold_left (fun n dest => dset n dest (match dget n dest with Some l => l | None => [] end ++ [fst e])) (snd e) n) d [].

(** L351-390 *)
Definition lpp_mapping : dict string (list string) :=
  [ ("boundary", ["prBoundary.boundary"]); ("prBoundary.boundary", ["prBoundary.boundary"]);
    ("tap.drawing", ["Activ.drawing"]); ("diff.drawing", ["Activ.drawing"]);
    ("nwell.drawing", ["NWell.drawing"]); ("nwell.label", ["NWell.pin"; "NWell.label"]);
    ("pwell.drawing", ["PWell.drawing"]); ("pwell.label", ["PWell.pin"; "PWell.label"]); ("pwell.pin", ["PWell.pin"]);
    ("nsdm.drawing", ["nSD.drawing"]); ("psdm.drawing", ["pSD.drawing"]); ("poly.drawing", ["GatPoly.drawing"]);
    ("licon1.drawing", ["Cont.drawing"]);
    ("li1.drawing", ["Metal1.drawing"]); ("li1.pin", ["Metal1.pin"]); ("li1.label", ["Metal1.pin"; "Metal1.text"]);
    ("mcon.drawing", ["Via1.drawing"]);
    ("met1.drawing", ["Metal2.drawing"]); ("met1.pin", ["Metal2.pin"]); ("met1.label", ["Metal2.pin"; "Metal2.text"]);
    ("via.drawing", ["Via2.drawing"]);
    ("met2.drawing", ["Metal3.drawing"]); ("met2.pin", ["Metal3.pin"]); ("met2.label", ["Metal3.pin"; "Metal3.text"]);
    ("via2.drawing", ["Via3.drawing"]);
    ("met3.drawing", ["Metal4.drawing"]); ("met3.pin", ["Metal4.pin"]); ("met3.label", ["Metal4.pin"; "Metal4.text"]);
    ("via3.drawing", ["Via4.drawing"]);
    ("met4.drawing", ["Metal5.drawing"]); ("met4.pin", ["Metal5.pin"]); ("met4.label", ["Metal5.pin"; "Metal5.text"]);
    ("via4.drawing", ["TopVia1.drawing"]);
    ("met5.drawing", ["TopMetal1.drawing"]); ("met5.pin", ["TopMetal1.pin"]); ("met5.label", ["TopMetal1.pin"; "TopMetal1.text"]);
    ("capacitor.drawing", ["Recog.mom"]); ("capm2.drawing", ["MIM.drawing"]) ].
(** L305-309, L318: sky130A and sg13g2 *)
Definition tech_layer_lists : list (list layer) := [parse_layers sky130A_lyp; parse_layers sg13g2_lyp].

(** ** the program *)
(** the options --log_level, --layers, --in, --out, L150-161 *)
Record args := Args { a_log_level : string; a_dump : bool; a_input : string; a_output : string }.
(** names of klayout_pex/log/logger.py LogLevel (L33-42); DEFAULT is an alias, which is not registered at L109-110 *)
Definition log_levels : list string := ["ALL"; "DEBUG"; "SUBPROCESS"; "VERBOSE"; "INFO"; "WARNING"; "ERROR"; "CRITICAL"].
(** names Python's logging module knows itself *)
Definition python_levels : list string := ["CRITICAL"; "FATAL"; "ERROR"; "WARN"; "WARNING"; "INFO"; "DEBUG"; "NOTSET"].
Definition mem (s : string) (l : list string) : bool := existsb (String.eqb s) l.
Definition upper_ascii (c : ascii) : ascii :=
  let n := nat_of_ascii c in if (Nat.leb 97 n && Nat.leb n 122)%bool then ascii_of_nat (n - 32) else c.
Fixpoint upper (s : string) : string := match s with EmptyString => EmptyString | String c t => String (upper_ascii c) (upper t) end.
(** a file system as the program sees it: files, directories, the directory of a path, and the layouts in the files *)
Record disk {shape : Type} := Disk { is_file : string -> bool; is_dir : string -> bool; dir_of : string -> string; content : string -> layout shape }.
Arguments disk : clear implicits.
(** convert_layout_pdk.py setup_logging, L199-200: setLevel raises ValueError for a text that is no registered name *)
Definition setup_logging (a : args) : bool := mem (a_log_level a) log_levels || mem (a_log_level a) python_levels.
(** convert_layout_pdk.py validate_args, L169-196: whether it does not raise.  L187 looks at the directory of the input. *)
Definition validate_args {shape} (d : disk shape) (a : args) : bool :=
  mem (upper (a_log_level a)) ("DEFAULT" :: log_levels) &&
  (a_dump a || (is_file d (a_input a) && is_dir d (dir_of d (a_input a)))).
Inductive outcome {shape : Type} :=
| Raises                                    (** ends with an exception *)
| Exits (status : nat)                      (** sys.exit *)
| Writes (path : string) (l : layout shape).
Arguments outcome : clear implicits.
(** convert_layout_pdk.py main L339-403, after flattening *)
Definition convert {shape} (l : layout shape) : option (nat * layout shape) :=
  let src_tech_index := guess_technology l tech_layer_lists in
  let dest_tech_index := Nat.modulo (src_tech_index + 1) 2 in
  let m := if Nat.eqb src_tech_index 1 then invert_dict lpp_mapping else lpp_mapping in
  match map_gds_layers m (nth src_tech_index tech_layer_lists []) (nth dest_tech_index tech_layer_lists []) l with
  | Some out => Some (src_tech_index, out)
  | None => None
  end.
(** convert_layout_pdk.py main, L298-407.  [flat] is the layout of a file with all cells flattened (L328-337).  layout.write raises if the directory of
    the output does not exist. *)
Definition main {shape} (d : disk shape) (a : args) : outcome shape :=
  if setup_logging a then
    if validate_args d a then
      if a_dump a then Exits 0
      else match convert (content d (a_input a)) with
           | None => Raises
           | Some (_, out) => if is_dir d (dir_of d (a_output a)) then Writes (a_output a) out else Raises
           end
    else Exits 1
  else Raises.
