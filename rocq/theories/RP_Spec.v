(** What the report database of a 2.5D run has to hold, without the reporter. *)
From Coq Require Import String ZArith QArith Qabs.
From Verif Require Import PyBase PyLib PyStr PyNum ER_Model RP_Model.
From Verif Require NX_Model RQ_Model.
Local Open Scope list_scope.
Local Open Scope string_scope.

(** ** capacitances *)
Section C.
Context {G : Type}.
Variable float_text : Qc -> string.
(** the category all contributions with the key of this one go to *)
Definition category (x : call G) : path :=
  match x with
  | COverlap c _ _ _ => let '(lt, nt, lb, nb) := ov_key c in ["[C] Overlap"; "top_layer=" ++ lt; "bot_layer=" ++ lb; nt ++ " – " ++ nb]
  | CSidewall c _ _ => let '(l, n1, n2) := sw_key c in ["[C] Sidewall"; "layer=" ++ l; "inside=" ++ n1; "outside=" ++ n2]
  | CFringe c _ _ _ => let '(li, ni, lo, no) := so_key c in
                       ["[C] Fringe / Side Overlap"; "inside_layer=" ++ li; "inside_net=" ++ ni; "outside_layer=" ++ lo; "outside_net=" ++ no]
  end.
(** the title of the [k]-th contribution in its category *)
Definition titled (k : nat) (x : call G) (t : string) : Prop :=
  exists v,
  match x with
  | COverlap c _ _ _ => rounds 3 v (ov_value c) /\ t = "#" ++ NX_Model.nat_str k ++ " " ++ v ++ " fF"
  | CSidewall c _ _ => rounds 3 v (sw_value c) /\
      t = "#" ++ NX_Model.nat_str k ++ ": len " ++ float_text (sw_length c) ++ " µm, distance " ++ float_text (sw_distance c) ++ " µm, " ++ v ++ " fF"
  | CFringe c _ _ _ => rounds 3 v (so_value c) /\ t = "#" ++ NX_Model.nat_str k ++ ": " ++ v ++ " fF"
  end.
(** the shapes below the title *)
Definition shown (x : call G) (p : path) : list (path * list G) :=
  match x with
  | COverlap _ bottom top area => [((p ++ ["Top Polygon"])%list, [top]); ((p ++ ["Bottom Polygon"])%list, [bottom]); ((p ++ ["Overlap Area"])%list, area)]
  | CSidewall _ i o => [(p, [i; o])]
  | CFringe _ i o l => [((p ++ ["Inside Edge"])%list, [i]); ((p ++ ["Outside Polygon"])%list, [o])] ++
                       match l with Some l => [((p ++ ["Lateral Shield"])%list, [l])] | None => [] end
  end.
(** how many of [xs] go to category [p] *)
Definition in_category (p : path) (xs : list (call G)) : nat := List.length (filter (fun y => eqb (category y) p) xs).
(** the items of [xs]: each contribution shows its shapes under a title numbered within its category *)
Inductive reported : list (call G) -> list (path * list G) -> Prop :=
| reported_nil : reported [] []
| reported_one xs items x t : reported xs items -> titled (S (in_category (category x) xs)) x t ->
    reported (xs ++ [x])%list (items ++ shown x (category x ++ [t]))%list.
(** the items at [p] or below *)
Fixpoint below (p q : path) : bool :=
  match p, q with
  | [], _ => true
  | a :: p, b :: q => eqb a b && below p q
  | _, [] => false
  end.
Definition under (p : path) (items : list (path * list G)) : list (path * list G) := filter (fun i => below p (fst i)) items.

(** the key of a contribution *)
Inductive key := KOverlap (k : overlap_key) | KSidewall (k : sidewall_key) | KFringe (k : sideoverlap_key).
Definition key_of (x : call G) : key :=
  match x with COverlap c _ _ _ => KOverlap (ov_key c) | CSidewall c _ _ => KSidewall (sw_key c) | CFringe c _ _ _ => KFringe (so_key c) end.
(** what the tables of results hold under a key *)
Inductive cap := Overlap (c : overlap_cap) | Sidewall (c : sidewall_cap) | Fringe (c : sideoverlap_cap).
Definition cap_of (x : call G) : cap := match x with COverlap c _ _ _ => Overlap c | CSidewall c _ _ => Sidewall c | CFringe c _ _ _ => Fringe c end.
Definition entries {K V} `{EqDec K} (d : dict K (list V)) (k : K) : list V := match dget d k with Some l => l | None => [] end.
Definition table (r : cell_results) (k : key) : list cap :=
  match k with
  | KOverlap k => map Overlap (entries (overlap_table r) k)
  | KSidewall k => map Sidewall (entries (sidewall_table r) k)
  | KFringe k => map Fringe (entries (sideoverlap_table r) k)
  end.
(** no en dash in the nets of an overlap *)
Definition no_dash (s : string) : Prop := forall a b, s <> a ++ "–" ++ b.
Definition plain (x : call G) : Prop :=
  match x with COverlap c _ _ _ => let '(_, nt, _, nb) := ov_key c in no_dash nt /\ no_dash nb | _ => True end.
End C.

(** ** resistances *)
Import RQ_Model.
(** the last node of the network with this id *)
Definition node_of (w : xnetwork) (i : nat) (n : xnode) : Prop :=
  exists l1 l2, xw_nodes w = (l1 ++ n :: l2)%list /\ xn_id n = i /\ forall m, In m l2 -> xn_id m <> i.
(** where a node is: its box, or the box of 10 by 10 around its point *)
Definition place (n : xnode) : (Z * Z) * (Z * Z) :=
  match xn_location n with
  | LPoint p _ => ((fst p - 5, snd p - 5), (fst p + 5, snd p + 5))%Z
  | LBox p1 p2 _ => (p1, p2)
  end.
(** the text of a resistance: ohms to three places, below a milliohm milliohms to six *)
Definition shows_ohm (r : Qc) (t : string) : Prop :=
  exists s, (((1 # 1000) <= r)%Q /\ t = s ++ " Ω" /\ rounds 3 s r) \/ ((r < 1 # 1000)%Q /\ t = s ++ " mΩ" /\ rounds 6 s (r * 1000)).
Definition network_path (w : xnetwork) (l : string) : path := ["[R] Extraction Result"; "Networks"; "Net " ++ xw_net w; l].
Definition node_item (w : xnetwork) (n : xnode) (i : path * list mark) : Prop :=
  i = ((network_path w "Nodes" ++ [(xn_name n ++ ", port net " ++ xn_net n ++ ", layer " ++ xn_layer n)%string])%list,
       [MBox (fst (place n)) (snd (place n))]).
Definition element_item (center : (Z * Z) * (Z * Z) -> Z * Z) (w : xnetwork) (e : kelement) (i : path * list mark) : Prop :=
  exists a b ohm, node_of w (ke_a e) a /\ node_of w (ke_b e) b /\ shows_ohm (ke_resistance e) ohm /\
  i = ((network_path w "Elements" ++ [(xn_name a ++ " (" ++ xn_layer a ++ ") ↔︎ " ++ xn_name b ++ " (" ++ xn_layer b ++ "): " ++ ohm)%string])%list,
       [MArrow (center (place a)) (center (place b))]).
(** the items of a network: its nodes, then its elements *)
Definition network_items (center : (Z * Z) * (Z * Z) -> Z * Z) (w : xnetwork) (l : list (path * list mark)) : Prop :=
  exists ns es, l = (ns ++ es)%list /\ Forall2 (node_item w) (xw_nodes w) ns /\ Forall2 (element_item center w) (xw_elements w) es.
(** every element ends at nodes of its network *)
Definition closed (w : xnetwork) : Prop :=
  forall e, In e (xw_elements w) -> (exists n, In n (xw_nodes w) /\ xn_id n = ke_a e) /\ (exists n, In n (xw_nodes w) /\ xn_id n = ke_b e).

(** ** the technology of the request *)
(** the line of a conductor: its number, names, and resistance rounded to three places *)
Definition conductor_line (c : RQ_Model.conductor) (t : string) : Prop :=
  exists v, rounds 3 v (RQ_Model.co_resistance c) /\
    t = NX_Model.nat_str (RQ_Model.co_layer c) ++ ": " ++ RQ_Model.co_canonical c ++ " (LVS " ++ RQ_Model.co_lvs c ++ "), " ++ v ++ " mΩ/µm^2".
(** the line of a via: also the names of the conductors at its two ends *)
Definition via_line (cs : list RQ_Model.conductor) (w : RQ_Model.via) (t : string) : Prop :=
  exists v b c, rounds 3 v (RQ_Model.vi_resistance w) /\ In b cs /\ RQ_Model.co_layer b = RQ_Model.vi_bottom w /\ In c cs /\ RQ_Model.co_layer c = RQ_Model.vi_top w /\
    t = NX_Model.nat_str (RQ_Model.vi_layer w) ++ ": " ++ RQ_Model.vi_canonical w ++ " (LVS " ++ RQ_Model.vi_lvs w ++ ", " ++ RQ_Model.co_canonical b ++ "↔︎" ++ RQ_Model.co_canonical c ++ "), " ++ v ++ " mΩ/µm^2".
