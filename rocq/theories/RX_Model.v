(** The resistance part of a 2.5D run as a whole: RCX25Extractor.extract_cell
    (klayout_pex/rcx25/extractor.py L195-247) makes the request from the LVS database, runs
    KLayout's resistance extractor for each net and keeps the result, which the netlist
    expander then reads.  The pieces are those of RQ_Model and E2_Model.  KLayout's extractor
    is a parameter.  Python exceptions are [None]. *)
From Coq Require Import String ZArith.
From Verif Require Import PyBase PyLib ER_Model LV_Model RQ_Model.
From Verif Require OV_Model SF_Model NX_Model UT_Model E2_Model.

(** what extraction_results.py L198-205 reads of a network of the result
    (klayout_pex/rcx25/r/r_extractor.py L327-378) *)
Definition message (w : xnetwork) : rnetwork :=
  RNetwork (map (fun x => RNode (xn_id x) (xn_net x)) (xw_nodes w))
           (map (fun e => RElement (ke_a e) (ke_b e) (ke_resistance e)) (xw_elements w)).

Section Run.
(** as in RQ_Model: kdb.Polygon's normal form and KLayout's extractor *)
Variable norm : list point -> list point.
Variable rex : ktech -> dict nat (list (poly * option string)) -> dict nat (list point) -> dict nat (list (poly * option string)) -> list knode * list kelement.
(** the technology, the LVS database and what the extraction context says about devices, pins
    and nets (LV_Model) *)
Variables (t : tech) (stack : list stacked) (res : resistances) (delaunay_b delaunay_amax : Qc).
Variables (blackbox : bool) (db : lvsdb) (lid : gds -> nat) (empty_truthy : bool).
Variables (devices : list device) (pins : list pin) (nets : list string).

(** the technology of the request, with the parameters of extractor.py L201-208 *)
Definition request_tech : option rextech :=
  prepare_tech t stack res SquareCounting SquareCounting delaunay_b delaunay_amax 0%Qc true (extracted_layers t blackbox db) lid.
(** the nets of the request, klayout_pex/rcx25/r/r_extractor.py L221-276 *)
Definition request_nets : option (dict string netreq) :=
  net_requests t (extracted_layers t blackbox db) lid (shapes_of_net t blackbox db) empty_truthy devices pins nets.
(** klayout_pex/rcx25/extractor.py L209-212 *)
Definition rex_result : option (list xnetwork) :=
  match request_tech, request_nets with
  | Some r, Some reqs => extract norm rex r reqs
  | _, _ => None
  end.

(** a run of the 2.5D engine (E2_Model) with this resistance extraction *)
Context {pt : Type}.
Variables (area : OV_Model.region pt -> Qc) (dbu : Qc) (substrate : string).
Variables (overlaps sideoverlaps : dict string (dict string Qc)) (substrate_caps : list string).
Variable sidewalls : dict string (Qc * Qc).
Variable cut : SF_Model.spoly -> list SF_Model.spoly -> list SF_Model.spoly.
Variable fringe_cap : Z -> Z -> Z -> Qc -> Qc -> option Qc.
Variable shield_top : Z.
Variable polygon_calls : dict string (list shape) -> nat -> list (OV_Model.poly pt * dict nat (list (OV_Model.poly pt))).
Variable edge_calls : dict string (list shape) -> nat -> list (string * list ((Z * Z) * dict nat (list SF_Model.spoly))).
Variables (substrate_shape : list shape) (metals : list string).
(** run_kpex_2_5d_engine, klayout_pex/kpex_cli.py L688-731 *)
Definition run (mode : UT_Model.pexmode) (top : string) (nl : NX_Model.netlist) : option NX_Model.netlist :=
  E2_Model.run_25d area dbu substrate overlaps sideoverlaps substrate_caps sidewalls cut fringe_cap shield_top polygon_calls edge_calls
    t (shapes_of_layer t blackbox db) substrate_shape metals mode (option_map (map message) rex_result) top nl blackbox.
End Run.
