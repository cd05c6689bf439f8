(** Model of klayout_pex/rcx25/extraction_results.py: the tables of extracted
    parasitics, and their summary per pair of nets. *)
From Coq Require Import String.
From Verif Require Import PyBase PyLib.
Set Implicit Arguments.
Local Open Scope Qc_scope.

(** SidewallKey, L47-50: layer, net1, net2 *)
Definition sidewall_key := (string * string * string)%type.
(** OverlapKey, L63-67: layer_top, net_top, layer_bot, net_bot *)
Definition overlap_key := (string * string * string * string)%type.
(** SideOverlapKey, L80-98: layer_inside, net_inside, layer_outside, net_outside
    (the None checks of __post_init__ do not arise: names are strings) *)
Definition sideoverlap_key := (string * string * string * string)%type.
(** NetCoupleKey, L111-113 *)
Notation couple := (string * string)%type (only parsing).

(** SidewallCap, L54-59 (the tech_spec reference is not observed by the summary) *)
Record sidewall_cap := SidewallCap { sw_key : sidewall_key; sw_value : Qc; sw_distance : Qc; sw_length : Qc }.
(** OverlapCap, L71-76 *)
Record overlap_cap := OverlapCap { ov_key : overlap_key; ov_value : Qc; ov_shielded : Qc; ov_unshielded : Qc }.
(** SideOverlapCap, L102-107 *)
Record sideoverlap_cap := SideOverlapCap { so_key : sideoverlap_key; so_value : Qc }.

(** NetCoupleKey.normed, L130-134 *)
Definition normed (k : couple) : couple :=
  if strlt (fst k) (snd k) then k else (snd k, fst k).

(** NetCoupleKey.__lt__, L118-121 *)
Definition couple_lt (k k' : couple) : bool :=
  let a := casefold (fst k) in let b := casefold (snd k) in
  let a' := casefold (fst k') in let b' := casefold (snd k') in
  if strlt a a' then true else if strlt a' a then false else strlt b b'.

(** ExtractionSummary, L138-140 *)
Record summary := Summary { capacitances : dict couple Qc; resistances : dict couple Qc }.

(** ExtractionSummary.merged, L142-152 *)
Definition merge_table (tables : list (dict couple Qc)) : dict couple Qc :=
  fold_left (fun d t => fold_left (fun d e => dadd d (normed (fst e)) (snd e)) t d) tables [].
Definition merged (l : list summary) : summary :=
  Summary (merge_table (map capacitances l)) (merge_table (map resistances l)).

(** r_network_pb2.RNode / RElement / RNetwork as read by summarize L196-208 *)
Record rnode := RNode { rn_id : nat; rn_net : string }.
Record relement := RElement { re_a : nat; re_b : nat; re_resistance : Qc }.
Record rnetwork := RNetwork { rnet_nodes : list rnode; rnet_elements : list relement }.

(** CellExtractionResults, L156-163 *)
Record cell_results := CellResults {
  overlap_table : dict overlap_key (list overlap_cap);
  sidewall_table : dict sidewall_key (list sidewall_cap);
  sideoverlap_table : dict sideoverlap_key (list sideoverlap_cap);
  r_networks : list rnetwork }.
Definition new_cell : cell_results := CellResults [] [] [] [].

(** defaultdict(list): table[k].append(x) *)
Definition dappend {K V} `{EqDec K} (d : dict K (list V)) (k : K) (x : V) : dict K (list V) :=
  dset d k ((match dget d k with Some l => l | None => [] end) ++ [x]).

(** add_overlap_cap, L165-166 *)
Definition add_overlap_cap (c : cell_results) (x : overlap_cap) : cell_results :=
  CellResults (dappend (overlap_table c) (ov_key x) x) (sidewall_table c) (sideoverlap_table c) (r_networks c).
(** add_sidewall_cap, L168-169 *)
Definition add_sidewall_cap (c : cell_results) (x : sidewall_cap) : cell_results :=
  CellResults (overlap_table c) (dappend (sidewall_table c) (sw_key x) x) (sideoverlap_table c) (r_networks c).
(** add_sideoverlap_cap, L171-172 *)
Definition add_sideoverlap_cap (c : cell_results) (x : sideoverlap_cap) : cell_results :=
  CellResults (overlap_table c) (sidewall_table c) (dappend (sideoverlap_table c) (so_key x) x) (r_networks c).

(** the net pair of each key, as built in L177, L184, L191 *)
Definition overlap_nets (k : overlap_key) : couple := let '(_, top, _, bot) := k in (bot, top).
Definition sidewall_nets (k : sidewall_key) : couple := let '(_, n1, n2) := k in (n1, n2).
Definition sideoverlap_nets (k : sideoverlap_key) : couple := let '(_, ins, _, out) := k in (ins, out).

(** the common shape of the three loops L175-194 *)
Definition table_summary {K C} (nets : K -> couple) (value : C -> Qc) (t : dict K (list C)) : dict couple Qc :=
  fold_left (fun d e => dadd d (normed (nets (fst e))) (qsum (map value (snd e)))) t [].

(** node_by_id, L199: a dict comprehension, the last node with an id wins *)
Definition node_by_id (n : rnetwork) : dict nat rnode :=
  fold_left (fun d x => dset d (rn_id x) x) (rnet_nodes n) [].

(** the resistance loop L198-205; a missing node id raises KeyError ([None]) *)
Fixpoint add_elements (nodes : dict nat rnode) (l : list relement) (d : dict couple Qc) : option (dict couple Qc) :=
  match l with
  | [] => Some d
  | e :: t =>
      match dget nodes (re_a e), dget nodes (re_b e) with
      | Some a, Some b => add_elements nodes t (dadd d (normed (rn_net a, rn_net b)) (re_resistance e))
      | _, _ => None
      end
  end.
Fixpoint resistance_table (l : list rnetwork) (d : dict couple Qc) : option (dict couple Qc) :=
  match l with
  | [] => Some d
  | n :: t => match add_elements (node_by_id n) (rnet_elements n) d with
              | Some d1 => resistance_table t d1
              | None => None
              end
  end.

(** CellExtractionResults.summarize, L174-213 *)
Definition cell_summarize (c : cell_results) : option summary :=
  match resistance_table (r_networks c) [] with
  | None => None
  | Some r =>
      Some (merged [Summary (table_summary overlap_nets ov_value (overlap_table c)) [];
                    Summary (table_summary sidewall_nets sw_value (sidewall_table c)) [];
                    Summary (table_summary sideoverlap_nets so_value (sideoverlap_table c)) [];
                    Summary [] r])
  end.

(** ExtractionResults.summarize, L220-222 *)
Fixpoint summarize_cells (l : list cell_results) : option (list summary) :=
  match l with
  | [] => Some []
  | c :: t => match cell_summarize c, summarize_cells t with
              | Some s, Some r => Some (s :: r)
              | _, _ => None
              end
  end.
Definition results := dict string cell_results.
Definition summarize (r : results) : option summary :=
  match summarize_cells (dvals r) with Some l => Some (merged l) | None => None end.
