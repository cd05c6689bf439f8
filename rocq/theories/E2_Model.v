(** The 2.5D engine from the calls KLayout makes to the netlist: OverlapExtractor.extract
    (klayout_pex/rcx25/c/overlap_extractor.py L54-73), SidewallAndFringeExtractor.extract
    (klayout_pex/rcx25/c/sidewall_and_fringe_extractor.py L66-100), extract_cell and the
    netlist expander, as run_kpex_2_5d_engine (klayout_pex/kpex_cli.py L676-742) puts them
    together.  The pieces are those of OV_Model, SF_Model, LV_Model, ER_Model and NX_Model.

    Region.complex_op is KLayout's: which polygons and edges the visitors are called for,
    with which neighbourhoods, is a parameter.  Python exceptions are [None]. *)
From Coq Require Import String ZArith.
From Verif Require Import PyBase PyLib ER_Model.
From Verif Require OV_Model SF_Model LV_Model NX_Model UT_Model.
Set Implicit Arguments.
Local Open Scope Qc_scope.

Section Engine.
Context {pt : Type}.
Notation regions := (dict string (list LV_Model.shape)).
(** Region.area, dbu and the tables of tech_info (see OV_Model and SF_Model) *)
Variables (area : OV_Model.region pt -> Qc) (dbu : Qc) (substrate : string).
Variables (overlaps sideoverlaps : dict string (dict string Qc)) (substrate_caps : list string).
Variable sidewalls : dict string (Qc * Qc).
Variable cut : SF_Model.spoly -> list SF_Model.spoly -> list SF_Model.spoly.
Variable fringe_cap : Z -> Z -> Z -> Qc -> Qc -> option Qc.
(** (side_halo + 10) / dbu *)
Variable shield_top : Z.

(** layer_region.complex_op(ovl_node), overlap_extractor.py L73: the calls of neighbors for
    the layer of that index: a polygon and its neighbourhood *)
Variable polygon_calls : regions -> nat -> list (OV_Model.poly pt * dict nat (list (OV_Model.poly pt))).
(** layer_region.complex_op(en_node), sidewall_and_fringe_extractor.py L100: the calls of
    on_edge: the net of the edge and its neighbourhood.  An edge of the substrate has no
    net, written "" here. *)
Variable edge_calls : regions -> nat -> list (string * list ((Z * Z) * dict nat (list SF_Model.spoly))).

(** OverlapExtractor.extract, overlap_extractor.py L54-73 *)
Definition overlap_entries (names : list string) (r : regions) : option (list LV_Model.entry) :=
  Some (flat_map (fun idx =>
    flat_map (fun c => map (fun e => LV_Model.EOverlap (OV_Model.em_cap e))
                         (OV_Model.neighbors area dbu substrate overlaps names idx (fst c) (snd c)))
      (polygon_calls r idx)) (seq 0 (List.length r))).

(** one call of emit_sidewall or emit_fringe from on_edge, sidewall_and_fringe_extractor.py
    L209-215 and L246-254, and what it adds to the results (L305, L458) *)
Definition event_entries (names : list string) (idx : nat) (net : string) (iv : Z * Z) (ev : SF_Model.event)
    : option (list LV_Model.entry) :=
  let layer := nth idx names EmptyString in
  match ev with
  | SF_Model.EvSidewall p =>
      match SF_Model.emit_sidewall dbu sidewalls layer net iv p with
      | None => None
      | Some None => Some []
      | Some (Some c) => Some [LV_Model.ESidewall c]
      end
  | SF_Model.EvFringe child ps shield _ =>
      match SF_Model.emit_fringe substrate overlaps sideoverlaps substrate_caps cut fringe_cap
              layer net (nth child names EmptyString) iv ps shield with
      | None => None
      | Some caps => Some (map LV_Model.ESideoverlap caps)
      end
  end.
(** the loops that stop at the first exception *)
Fixpoint collect {A B} (f : A -> option (list B)) (l : list A) : option (list B) :=
  match l with
  | [] => Some []
  | x :: t => match f x with
              | None => None
              | Some a => match collect f t with None => None | Some b => Some (a ++ b) end
              end
  end.
(** on_edge, sidewall_and_fringe_extractor.py L146-254 *)
Definition edge_entries (names : list string) (idx : nat) (c : string * list ((Z * Z) * dict nat (list SF_Model.spoly)))
    : option (list LV_Model.entry) :=
  match SF_Model.on_edge (List.length names) idx shield_top (snd c) with
  | None => None
  | Some evs => collect (fun e => event_entries names idx (fst c) (fst e) (snd e)) evs
  end.
(** SidewallAndFringeExtractor.extract, sidewall_and_fringe_extractor.py L66-100 *)
Definition sidewall_fringe_entries (names : list string) (r : regions) : option (list LV_Model.entry) :=
  collect (fun idx => collect (edge_entries names idx) (edge_calls r idx)) (seq 0 (List.length r)).

(** RCX25Extractor.extract, klayout_pex/rcx25/extractor.py L88-113 (without the report),
    for the top cell [top] *)
Variable t : LV_Model.tech.
Variable context_shapes : LV_Model.gds -> option (list LV_Model.shape).
Variable substrate_shape : list LV_Model.shape.
Variable metals : list string.
Definition extract (mode : UT_Model.pexmode) (resistance : option (list rnetwork)) (top : string) : option results :=
  match LV_Model.extract_cell t context_shapes substrate_shape overlap_entries sidewall_fringe_entries
          resistance mode metals new_cell with
  | None => None
  | Some c => Some [(top, c)]
  end.

(** run_kpex_2_5d_engine, kpex_cli.py L688-731: extraction, then the expanded netlist which
    is written as SPICE (the table is in CS_Model) *)
Definition run_25d (mode : UT_Model.pexmode) (resistance : option (list rnetwork)) (top : string)
    (nl : NX_Model.netlist) (blackbox : bool) : option NX_Model.netlist :=
  match extract mode resistance top with
  | None => None
  | Some r => NX_Model.expand nl top r blackbox
  end.
End Engine.
