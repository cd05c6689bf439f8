(** What KLayout's resistance extractor found, as resistors between nets of the netlist. *)
From Coq Require Import String ZArith.
From Verif Require Import PyBase PyLib ER_Model ER_Spec LV_Model RQ_Model RQ_Spec.

(** the extractor's nodes have different ids, and its elements join its nodes *)
Definition proper_output (out : list knode * list kelement) : Prop :=
  NoDup (map kn_id (fst out)) /\
  forall e, In e (snd out) -> In (ke_a e) (map kn_id (fst out)) /\ In (ke_b e) (map kn_id (fst out)).

(** the net at which node [i] of the network of [net] appears: ports are the net itself, inner
    nodes are nets of their own *)
Definition net_at (net : string) (nodes : list knode) (i : nat) (s : string) : Prop :=
  exists k, In k nodes /\ kn_id k = i /\ s = match kn_port k with NoPort => kn_name k | _ => net end.
(** the elements of the network of [net] as resistors between nets *)
Definition network_part (net : string) (out : list knode * list kelement) (l : list report) : Prop :=
  Forall2 (fun e r => net_at net (fst out) (ke_a e) (fst (fst r)) /\ net_at net (fst out) (ke_b e) (snd (fst r)) /\ snd r = ke_resistance e)
    (snd out) l.

(** what the extractor says about the net of a request: it is given the technology, the
    polygons of the net, its pins as points and its terminals as polygons *)
Definition output_for (norm : list point -> list point)
    (rex : ktech -> dict nat (list (poly * option string)) -> dict nat (list point) -> dict nat (list (poly * option string)) -> list knode * list kelement)
    (r : rextech) (v : netreq) (out : list knode * list kelement) : Prop :=
  exists vertex_ports polygon_ports,
    ports_are vertex_ports (fun k => map pin_point (pins_on k (nr_pins v))) /\
    ports_are polygon_ports (fun k => map (fun x => klayout_polygon norm (snd x)) (polygons_on k (nr_terminals v))) /\
    out = rex (klayout_tech r) (regions_by_layer norm (nr_regions v)) vertex_ports polygon_ports.
(** [l] has the resistors of all requested nets *)
Definition all_parts norm rex (r : rextech) (reqs : list (string * netreq)) (l : list report) : Prop :=
  exists parts, Forall2 (fun e p => exists out, output_for norm rex r (snd e) out /\ network_part (fst e) out p) reqs parts /\ l = List.concat parts.
