(** What "the capacitance between two nets" means: the total over everything that was
    reported between them, regardless of orientation. *)
From Coq Require Import String.
From Verif Require Import PyBase PyLib ER_Model.
Set Implicit Arguments.
Local Open Scope Qc_scope.

(** one reported parasitic: two nets and a value *)
Notation report := (string * string * Qc)%type (only parsing).

(** {a,b} and {x,y} are the same pair of nets *)
Definition same_nets (x y a b : string) : bool :=
  (eqb x a && eqb y b) || (eqb x b && eqb y a).

(** total reported between x and y *)
Definition reported (l : list report) (x y : string) : Qc :=
  qsumf (fun r => let '(a, b, v) := r in if same_nets x y a b then v else 0) l.
(** something was reported between x and y *)
Definition mentioned (l : list report) (x y : string) : Prop :=
  exists a b v, In (a, b, v) l /\ same_nets x y a b = true.
Definition total (l : list report) : Qc := qsumf snd l.

(** the calls a client can make *)
Inductive add_op :=
| AddOverlap (c : overlap_cap)
| AddSidewall (c : sidewall_cap)
| AddSideOverlap (c : sideoverlap_cap).
Definition add_step (c : cell_results) (o : add_op) : cell_results :=
  match o with
  | AddOverlap x => add_overlap_cap c x
  | AddSidewall x => add_sidewall_cap c x
  | AddSideOverlap x => add_sideoverlap_cap c x
  end.
Definition add_caps (l : list add_op) : cell_results := fold_left add_step l new_cell.

(** what each call reports *)
Definition report_of (o : add_op) : report :=
  match o with
  | AddOverlap x => let '(_, top, _, bot) := ov_key x in (top, bot, ov_value x)
  | AddSidewall x => let '(_, n1, n2) := sw_key x in (n1, n2, sw_value x)
  | AddSideOverlap x => let '(_, ins, _, out) := so_key x in (ins, out, so_value x)
  end.

(** the same call with the two nets exchanged *)
Definition swap_op (o : add_op) : add_op :=
  match o with
  | AddOverlap x => let '(lt, top, lb, bot) := ov_key x in
      AddOverlap (OverlapCap (lt, bot, lb, top) (ov_value x) (ov_shielded x) (ov_unshielded x))
  | AddSidewall x => let '(l, n1, n2) := sw_key x in
      AddSidewall (SidewallCap (l, n2, n1) (sw_value x) (sw_distance x) (sw_length x))
  | AddSideOverlap x => let '(li, ins, lo, out) := so_key x in
      AddSideOverlap (SideOverlapCap (li, out, lo, ins) (so_value x))
  end.

(** the value a table gives for the unordered pair {x,y}; [None]: no entry *)
Definition pair_value (d : dict couple Qc) (x y : string) : option Qc :=
  match dget d (x, y) with Some v => Some v | None => dget d (y, x) end.

(** a table with each unordered pair at most once, names in order *)
Definition normal_table (d : dict couple Qc) : Prop :=
  NoDup (dkeys d) /\ forall a b, In (a, b) (dkeys d) -> strlt b a = false.

(** the resistors of a network between named nets; [None] if a node id is unknown *)
Definition net_of (n : rnetwork) (i : nat) : option string :=
  match find (fun x => Nat.eqb (rn_id x) i) (rev (rnet_nodes n)) with Some x => Some (rn_net x) | None => None end.
Definition element_report (n : rnetwork) (e : relement) : option report :=
  match net_of n (re_a e), net_of n (re_b e) with
  | Some a, Some b => Some (a, b, re_resistance e)
  | _, _ => None
  end.
Fixpoint all_some {A} (l : list (option A)) : option (list A) :=
  match l with
  | [] => Some []
  | Some x :: t => match all_some t with Some r => Some (x :: r) | None => None end
  | None :: _ => None
  end.
Definition resistor_reports (l : list rnetwork) : option (list report) :=
  all_some (flat_map (fun n => map (element_report n) (rnet_elements n)) l).

(** a cell whose R extraction result is [r] *)
Definition with_networks (c : cell_results) (r : list rnetwork) : cell_results :=
  CellResults (overlap_table c) (sidewall_table c) (sideoverlap_table c) r.

(** two summaries a client cannot tell apart *)
Definition same_summary (s t : summary) : Prop := forall x y,
  pair_value (capacitances s) x y = pair_value (capacitances t) x y /\
  pair_value (resistances s) x y = pair_value (resistances t) x y.
Definition normal_summary (s : summary) : Prop := normal_table (capacitances s) /\ normal_table (resistances s).

(** adding up optional values: no entry anywhere gives no entry *)
Fixpoint opt_total (l : list (option Qc)) : option Qc :=
  match l with
  | [] => None
  | None :: t => opt_total t
  | Some v :: t => match opt_total t with Some w => Some (v + w) | None => Some v end
  end.
