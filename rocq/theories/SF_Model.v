(** Model of klayout_pex/rcx25/c/polygon_utils.py and of PEXEdgeNeighborhoodVisitor in
    klayout_pex/rcx25/c/sidewall_and_fringe_extractor.py.

    A polygon is its net and its hull, a kdb.Region is the list of polygons inserted into
    it (raw, unmerged).  KLayout's boolean subtraction is the parameter [cut].  Python
    exceptions are [None]. *)
From Coq Require Import String ZArith.
From Verif Require Import PyBase PyLib ER_Model.
Set Implicit Arguments.
Local Open Scope Z_scope.

Record spoly := SPoly { sp_net : string; sp_hull : list (Z * Z) }.
Notation sedge := ((Z * Z) * (Z * Z))%type (only parsing).

(** polygon.bbox().p1.y, polygon.bbox().p2.y *)
Definition bbox_lo (p : spoly) : Z :=
  match sp_hull p with [] => 0 | (_, y) :: t => fold_left (fun m q => Z.min m (snd q)) t y end.
Definition bbox_hi (p : spoly) : Z :=
  match sp_hull p with [] => 0 | (_, y) :: t => fold_left (fun m q => Z.max m (snd q)) t y end.
(** polygon.each_edge() *)
Definition each_edge (p : spoly) : list sedge :=
  match sp_hull p with [] => [] | x :: t => combine (x :: t) (t ++ [x])%list end.

(** nearest_edge_distance, polygon_utils.py L37-47 (the warning for non-boxes left out) *)
Definition nearest_edge_distance (p : spoly) : Z :=
  let d := Z.min (bbox_lo p) (bbox_hi p) in if d <? 0 then 0 else d.
(** find_polygon_with_nearest_edge, L50-58; math.inf is [None]; IndexError for an empty list *)
Definition closer (best : option Z * spoly) (p : spoly) : option Z * spoly :=
  let d := nearest_edge_distance p in
  match fst best with
  | None => (Some d, p)
  | Some b => if d <? b then (Some d, p) else best
  end.
Definition find_nearest (ps : list spoly) : option (option Z * spoly) :=
  match ps with [] => None | p :: _ => Some (fold_left closer ps (None, p)) end.
(** nearest_edge, L61-63; IndexError if there is no right-to-left edge *)
Definition nearest_edge (p : spoly) : option sedge :=
  match rev (filter (fun e => fst (snd e) - fst (fst e) <? 0) (each_edge p)) with
  | [] => None
  | e :: _ => Some e
  end.

(** what on_edge does for one interval: a call of emit_sidewall (polygon), or of
    emit_fringe (child index, polygons, shield, lateral shield) *)
Inductive event :=
| EvSidewall (p : spoly)
| EvFringe (child : nat) (ps : list spoly) (shield : list spoly) (lateral : option spoly).

Section OnEdge.
(** len(all_layer_names), inside_layer_index and (side_halo + 10) / dbu *)
Variables (n inside : nat) (shield_top : Z).

(** nearest_distance, nearest_lateral_edge and the sidewall calls so far *)
Record lat := Lat { l_dist : option Z; l_edge : option sedge; l_events : list event }.
(** distance < nearest_distance with math.inf = None *)
Definition dist_lt (a b : option Z) : bool :=
  match a, b with Some x, Some y => x <? y | Some _, None => true | None, _ => false end.
(** L188-215 *)
Definition lateral_step (s : option lat) (e : nat * list spoly) : option lat :=
  match s with
  | None => None
  | Some s =>
      if Nat.eqb (fst e) n || Nat.eqb inside (fst e) then
        match find_nearest (snd e) with
        | None => None
        | Some (d, p) =>
            match (match l_dist s with
                   | None => match nearest_edge p with None => None | Some ed => Some (d, Some ed) end
                   | Some b => if dist_lt d (Some b)
                               then match nearest_edge p with None => None | Some ed => Some (d, Some ed) end
                               else Some (l_dist s, l_edge s)
                   end) with
            | None => None
            | Some (d', ed') =>
                Some (Lat d' ed' (if Nat.eqb (fst e) n then l_events s else l_events s ++ [EvSidewall p])%list)
            end
        end
      else Some s
  end.
(** L217-224 *)
Definition lateral_polygon (e : sedge) : spoly :=
  SPoly EmptyString [snd e; fst e; (fst (fst e), shield_top); (fst (snd e), shield_top)].
(** layer_fringe_shields, L176-179 *)
Definition layer_shields (pbc : dict nat (list spoly)) (i : nat) : list spoly :=
  if Nat.ltb i n then match dget pbc i with Some ps => ps | None => [] end else [].
(** L230-241 *)
Definition fringe_shield (pbc : dict nat (list spoly)) (lateral : option spoly) (child : nat) : list spoly :=
  (match lateral with Some p => [p] | None => [] end
   ++ (if Nat.ltb child inside then flat_map (layer_shields pbc) (seq (S child) (inside - S child))
       else if Nat.ltb inside child then flat_map (layer_shields pbc) (seq (S inside) (child - S inside))
       else []))%list.
(** L226-254 *)
Definition fringe_step (pbc : dict nat (list spoly)) (lateral : option spoly) (e : nat * list spoly) : list event :=
  if Nat.eqb inside (fst e) then []
  else if Nat.ltb (fst e) n then [EvFringe (fst e) (snd e) (fringe_shield pbc lateral (fst e)) lateral]
  else [].
(** the body of the loop over intervals, L176-254 *)
Definition on_interval (pbc : dict nat (list spoly)) : option (list event) :=
  match fold_left lateral_step pbc (Some (Lat None None [])) with
  | None => None
  | Some s =>
      let lateral := match l_edge s with Some e => Some (lateral_polygon e) | None => None end in
      Some (l_events s ++ flat_map (fringe_step pbc lateral) pbc)%list
  end.
(** on_edge, L146-254: the neighbourhood is a list of intervals with their polygons; the
    log output is left out *)
Fixpoint on_edge (nb : list ((Z * Z) * dict nat (list spoly))) : option (list ((Z * Z) * event)) :=
  match nb with
  | [] => Some []
  | ((a, b), pbc) :: t =>
      match pbc with
      | [] => on_edge t
      | _ => if b - a <=? 1 then on_edge t
             else match on_interval pbc with
                  | None => None
                  | Some evs => match on_edge t with
                                | None => None
                                | Some r => Some (map (pair (a, b)) evs ++ r)%list
                                end
                  end
      end
  end.
End OnEdge.

Section Emit.
Local Open Scope Qc_scope.
Variable dbu : Qc.
Definition zq (z : Z) : Qc := Q2Qc (inject_Z z).

(** sidewall_cap_by_layer_name: layer -> (capacitance, offset) *)
Variable sidewalls : dict string (Qc * Qc).
(** emit_sidewall, L256-311: [Some None] is the return for equal nets; KeyError and
    ZeroDivisionError are [None].  nearest_edge, only used for the report, may raise too. *)
Definition emit_sidewall (layer net1 : string) (interval : Z * Z) (p : spoly) : option (option sidewall_cap) :=
  if eqb net1 (sp_net p) then Some None
  else match dget sidewalls layer with
       | None => None
       | Some (c, offset) =>
           match nearest_edge p with
           | None => None
           | Some _ =>
               let length_um := zq (snd interval - fst interval) * dbu in
               let distance_um := zq (Z.min (bbox_lo p) (bbox_hi p)) * dbu in
               if qeqb (distance_um + offset) 0 then None
               else Some (Some (SidewallCap (layer, net1, sp_net p)
                      ((length_um * c) / (distance_um + offset) / Q2Qc 2 / Q2Qc 1000) distance_um length_um))
           end
       end.

Variable substrate : string.
(** overlap_cap_by_layer_names, side_overlap_cap_by_layer_names and the keys of
    substrate_cap_by_layer_name *)
Variables (overlaps sideoverlaps : dict string (dict string Qc)) (substrate_caps : list string).
(** L379-387: overlap and side overlap capacitance; KeyError is [None] *)
Definition fringe_specs (ins out : string) : option (Qc * Qc) :=
  match dget overlaps ins with
  | None => None
  | Some t =>
      match (match dget t out with
             | Some c => Some c
             | None => match dget overlaps out with Some t' => dget t' ins | None => None end
             end) with
      | None => None
      | Some oc =>
          if existsb (eqb ins) substrate_caps then
            match dget sideoverlaps ins with
            | None => None
            | Some t' => match dget t' out with Some sc => Some (oc, sc) | None => None end
            end
          else None
      end
  end.

(** Region(p) - shield, as a list of polygons *)
Variable cut : spoly -> list spoly -> list spoly.
(** fringe_cap (modelled in FR_Model.v over the reals): length, near, far, overlap
    capacitance, side overlap capacitance; ZeroDivisionError is [None] *)
Variable fringe_cap : Z -> Z -> Z -> Qc -> Qc -> option Qc.

(** L359-377 and L389-413 *)
Definition net_of (layer : string) (net : string) : string := if eqb layer substrate then substrate else net.
Definition group_step (ins_net out_layer : string) (shield : list spoly) (d : dict string (list spoly)) (p : spoly) :=
  let out_net := net_of out_layer (sp_net p) in
  if eqb ins_net out_net then d
  else match shield with
       | [] => dset d out_net (match dget d out_net with Some l => l | None => [] end ++ [p])%list
       | _ => match cut p shield with
              | [] => d
              | ups => dset d out_net (match dget d out_net with Some l => l | None => [] end
                                       ++ map (fun up => SPoly out_net (sp_hull up)) ups)%list
              end
       end.

(** outcome of the emitting loops: caps so far, and whether emit_fringe returned *)
Inductive fr := FrRaise | FrDone (returned : bool) (caps : list sideoverlap_cap).
(** L418-466: body of the loop over the polygons of one net *)
Definition emit_piece (ins_layer ins_net out_layer : string) (len : Z) (oc sc : Qc) (out_net : string)
    (s : fr) (p : spoly) : fr :=
  match s with
  | FrRaise => FrRaise
  | FrDone true caps => s
  | FrDone false caps =>
      let near := if (bbox_lo p <? 0)%Z then 0%Z else bbox_lo p in
      let far := if (bbox_hi p <? 0)%Z then 0%Z else bbox_hi p in
      if (far <? near)%Z then FrRaise
      else if Z.eqb far near then FrDone true caps
      else match fringe_cap len near far oc sc with
           | None => FrRaise
           | Some cap =>
               if qltb (Q2Qc (1 # 10000)) cap
               then FrDone false (caps ++ [SideOverlapCap (ins_layer, ins_net, out_layer, out_net) cap])
               else s
           end
  end.
(** emit_fringe, L349-466; [edge_net] is the net of the edge *)
Definition emit_fringe (ins_layer edge_net out_layer : string) (interval : Z * Z)
    (polys shield : list spoly) : option (list sideoverlap_cap) :=
  let ins_net := net_of ins_layer edge_net in
  match fringe_specs ins_layer out_layer with
  | None => None
  | Some (oc, sc) =>
      let by_net := fold_left (group_step ins_net out_layer shield) polys [] in
      match fold_left (fun s e => fold_left (emit_piece ins_layer ins_net out_layer (snd interval - fst interval) oc sc (fst e)) (snd e) s)
              by_net (FrDone false []) with
      | FrRaise => None
      | FrDone _ caps => Some caps
      end
  end.
End Emit.
