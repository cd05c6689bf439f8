(** Proofs about renaming nets and reordering shapes. *)
From Coq Require Import String ZArith Permutation Lia.
From Verif Require Import PyBase PyLib ER_Model ER_Spec ER_Proofs ER_Props E2_Model E2_Spec E2_Proofs SY_Spec.
From Verif Require OV_Model OV_Spec SF_Model SF_Spec SF_Proofs LV_Model NX_Model NX_Spec NX_Props UT_Model.

(** ** a run is its reports *)
Section Run.
Context {pt : Type}.
Variables (area : OV_Model.region pt -> Qc) (dbu : Qc) (substrate : string).
Variables (overlaps sideoverlaps : dict string (dict string Qc)) (substrate_caps : list string).
Variable sidewalls : dict string (Qc * Qc).
Variable cut : SF_Model.spoly -> list SF_Model.spoly -> list SF_Model.spoly.
Variable fringe_cap : Z -> Z -> Z -> Qc -> Qc -> option Qc.
Variable shield_top : Z.
Variable polygon_calls : dict string (list LV_Model.shape) -> nat -> list (OV_Model.poly pt * dict nat (list (OV_Model.poly pt))).
Variable edge_calls : dict string (list LV_Model.shape) -> nat -> list (string * list ((Z * Z) * dict nat (list SF_Model.spoly))).
Variables (t : LV_Model.tech) (context_shapes : LV_Model.gds -> option (list LV_Model.shape)) (substrate_shape : list LV_Model.shape) (metals : list string).

Definition all_entries (mode : UT_Model.pexmode) : option (list LV_Model.entry) :=
  match LV_Model.layer_regions t context_shapes substrate_shape metals with
  | None => None
  | Some r =>
      if UT_Model.need_capacitance mode then
        match overlap_entries area dbu substrate overlaps polygon_calls (dkeys r) r,
              sidewall_fringe_entries dbu substrate overlaps sideoverlaps substrate_caps sidewalls cut fringe_cap shield_top edge_calls (dkeys r) r with
        | Some a, Some b => Some (a ++ b)
        | _, _ => None
        end
      else Some []
  end.
Definition all_networks (mode : UT_Model.pexmode) (resistance : option (list rnetwork)) : option (list rnetwork) :=
  if UT_Model.need_resistance mode then resistance else Some [].
Lemma run_is mode resistance top nl bb :
  run_25d area dbu substrate overlaps sideoverlaps substrate_caps sidewalls cut fringe_cap shield_top polygon_calls edge_calls
    t context_shapes substrate_shape metals mode resistance top nl bb =
  match all_entries mode, all_networks mode resistance with
  | Some es, Some n => NX_Model.expand nl top [(top, with_networks (add_caps (map op_of es)) n)] bb
  | _, _ => None
  end.
Proof.
  unfold run_25d, extract, LV_Model.extract_cell, all_entries, all_networks.
  destruct (LV_Model.layer_regions t context_shapes substrate_shape metals) as [r|]; [|reflexivity].
  assert (W : forall ops, with_networks (add_caps ops) [] = add_caps ops).
  { intros ops. unfold with_networks. pose proof (add_caps_r ops new_cell) as R. cbn in R. change (fold_left add_step ops new_cell) with (add_caps ops) in R.
    rewrite <- R. destruct (add_caps ops). reflexivity. }
  destruct (UT_Model.need_capacitance mode).
  - destruct (overlap_entries _ _ _ _ _ _ _) as [a|]; [|reflexivity].
    destruct (sidewall_fringe_entries _ _ _ _ _ _ _ _ _ _ _ _) as [b|]; [|reflexivity].
    rewrite <- fold_left_app, add_entries. fold (add_caps (map op_of (a ++ b))).
    destruct (UT_Model.need_resistance mode); [destruct resistance; reflexivity|]. rewrite W. reflexivity.
  - destruct (UT_Model.need_resistance mode); [destruct resistance; reflexivity|]. cbn [map]. rewrite W. reflexivity.
Qed.
End Run.

(** ** the netlist of a list of reports *)
Definition gives (l : list report) (d : dict couple Qc) : Prop :=
  (forall x y, mentioned l x y -> pair_value d x y = Some (reported l x y)) /\ (forall x y, ~ mentioned l x y -> pair_value d x y = None).
Lemma mentioned_dec l x y : mentioned l x y \/ ~ mentioned l x y.
Proof.
  destruct (existsb (fun r : report => same_nets x y (fst (fst r)) (snd (fst r))) l) eqn:E.
  - left. apply existsb_exists in E. destruct E as ([[a b] v] & I & S). exists a, b, v. auto.
  - right. intros (a & b & v & I & S). enough (X : existsb (fun r : report => same_nets x y (fst (fst r)) (snd (fst r))) l = true) by congruence.
    apply existsb_exists. exists (a, b, v). auto.
Qed.
Lemma mentioned_perm l l' x y : Permutation l l' -> mentioned l x y -> mentioned l' x y.
Proof. intros P (a & b & v & I & S). exists a, b, v. split; [eapply Permutation_in; eauto|exact S]. Qed.
Lemma gives_perm l l' d d' : Permutation l l' -> gives l d -> gives l' d' -> forall x y, pair_value d x y = pair_value d' x y.
Proof.
  intros P [A B] [A' B'] x y. destruct (mentioned_dec l x y) as [M|M].
  - rewrite (A x y M), (A' x y (mentioned_perm _ _ _ _ P M)). f_equal. unfold reported. apply qsumf_perm, P.
  - rewrite (B x y M), (B' x y); [reflexivity|]. intros M'. apply M. exact (mentioned_perm _ _ _ _ (Permutation_sym P) M').
Qed.
Lemma summary_of top es n : resistor_reports n <> None ->
  exists sm rr, summarize [(top, with_networks (add_caps (map op_of es)) n)] = Some sm /\ resistor_reports n = Some rr /\
    (gives (rep es) (capacitances sm) /\ gives rr (resistances sm)) /\ sums_of (rep es) (capacitances sm) /\ sums_of rr (resistances sm).
Proof.
  intros Hn. destruct (cell_summarize (with_networks (add_caps (map op_of es)) n)) as [sm|] eqn:E.
  2: { apply cell_summarize_none in E. contradiction. }
  pose proof (cell_normal _ _ E) as N. destruct (resistor_reports n) as [rr|] eqn:R; [|contradiction].
  exists sm, rr. split.
  - unfold summarize. cbn [dvals map snd summarize_cells]. rewrite E. f_equal. now apply C12_merge_laws.
  - split; [reflexivity|]. destruct (C10_summary_conserves _ _ _ E) as (V1 & V2 & _).
    assert (ER : map report_of (map op_of es) = rep es).
    { unfold rep. rewrite map_map. apply map_ext. intros [x|x|x]; reflexivity. }
    rewrite ER in V1, V2.
    destruct (proj2 (C13_resistances_sum _) sm E) as (r2 & R1 & V). cbn [with_networks r_networks] in R1.
    assert (r2 = rr) by congruence. subst r2.
    assert (G1 : gives (rep es) (capacitances sm)) by (split; assumption).
    assert (G2 : gives rr (resistances sm)) by (split; intros x y; apply (V x y)).
    split; [split; assumption|]. split; apply normal_sums; [apply N|apply G1|apply G1|apply N|apply G2|apply G2].
Qed.
Lemma expand_adds nl top es n bb : 
  (NX_Model.expand nl top [(top, with_networks (add_caps (map op_of es)) n)] bb = None <->
     resistor_reports n = None \/ ~ In top (map NX_Model.c_name (NX_Model.circuits nl))) /\
  forall out, NX_Model.expand nl top [(top, with_networks (add_caps (map op_of es)) n)] bb = Some out ->
    exists rr capl resl, resistor_reports n = Some rr /\ adds nl out top bb capl resl /\ sums_of (rep es) capl /\ sums_of rr resl.
Proof.
  destruct (NX_Props.C14_expansion_faithful nl top [(top, with_networks (add_caps (map op_of es)) n)] bb) as [A B]. split.
  - rewrite A. assert (S : summarize [(top, with_networks (add_caps (map op_of es)) n)] = None <-> resistor_reports n = None); [|tauto].
    split; intros H.
    + destruct (resistor_reports n) eqn:R; [|reflexivity]. destruct (summary_of top es n) as (sm & rr & Es & _); congruence.
    + unfold summarize. cbn [dvals map snd summarize_cells]. 
      replace (cell_summarize (with_networks (add_caps (map op_of es)) n)) with (@None summary); [reflexivity|]. symmetry. now apply cell_summarize_none.
  - intros out E. destruct (B out E) as (sm & pre & c & post & c' & E1 & E2 & E3 & E4 & E5 & X & _).
    assert (Hn : resistor_reports n <> None).
    { intros C. destruct A as [_ A]. rewrite A in E; [discriminate|]. left. unfold summarize. cbn [dvals map snd summarize_cells].
      replace (cell_summarize (with_networks (add_caps (map op_of es)) n)) with (@None summary); [reflexivity|]. symmetry. now apply cell_summarize_none. }
    destruct (summary_of top es n Hn) as (sm' & rr & Es & Er & _ & S1 & S2). assert (sm' = sm) by congruence. subst sm'.
    destruct (NX_Spec.x_devices X) as (kept & caps & ress & capl & resl & D1 & D2 & D3 & D4 & D5 & D6 & D7 & _).
    exists rr, capl, resl. split; [exact Er|]. split; [exists pre, c, post, c', kept, caps, ress; auto 12|].
    split; eapply sums_perm; [symmetry; exact D4|exact S1|symmetry; exact D6|exact S2].
Qed.

(** ** names *)
Section Names.
Variable f : string -> string.
Hypothesis inj : forall x y, f x = f y -> x = y.
Lemma eqb_f x y : eqb (f x) (f y) = eqb x y.
Proof. destruct (eqb x y) eqn:E; [apply eqb_eq in E; subst; apply eqb_refl|]. apply eqb_false. apply eqb_false in E. intros C. apply E, inj, C. Qed.
Lemma same_nets_f x y a b : same_nets (f x) (f y) (f a) (f b) = same_nets x y a b.
Proof. unfold same_nets. rewrite !eqb_f. reflexivity. Qed.
Definition named_rep (r : report) : report := ((f (fst (fst r)), f (snd (fst r))), snd r).

Lemma mentioned_f l u w : mentioned (map named_rep l) u w <-> exists x y, u = f x /\ w = f y /\ mentioned l x y.
Proof.
  split.
  - intros (a & b & v & I & S). apply in_map_iff in I. destruct I as ([[a0 b0] v0] & E & I). unfold named_rep in E. cbn in E.
    assert (Ea : f a0 = a) by exact (f_equal (fun z => fst (fst z)) E). assert (Eb : f b0 = b) by exact (f_equal (fun z => snd (fst z)) E). subst a b.
    apply same_nets_spec in S. destruct S as [[-> ->]|[-> ->]].
    + exists a0, b0. split; [reflexivity|]. split; [reflexivity|]. exists a0, b0, v0. split; [exact I|]. apply same_nets_spec. auto.
    + exists b0, a0. split; [reflexivity|]. split; [reflexivity|]. exists a0, b0, v0. split; [exact I|]. apply same_nets_spec. auto.
  - intros (x & y & -> & -> & a & b & v & I & S). exists (f a), (f b), v. split; [|rewrite same_nets_f; exact S].
    apply in_map_iff. exists (a, b, v). auto.
Qed.
Lemma reported_f l x y : reported (map named_rep l) (f x) (f y) = reported l x y.
Proof.
  unfold reported. induction l as [|[[a b] v] l IH]; [reflexivity|]. cbn [map]. rewrite !qsumf_cons, IH. unfold named_rep. cbn [fst snd].
  rewrite same_nets_f. reflexivity.
Qed.
Lemma reported_swap l x y : reported l x y = reported l y x.
Proof.
  unfold reported. apply qsumf_ext. intros [[a b] v] _. replace (same_nets x y a b) with (same_nets y x a b); [reflexivity|].
  unfold same_nets. rewrite orb_comm. f_equal; apply andb_comm.
Qed.
Lemma sums_has l capl : sums_of l capl -> forall x y v, has capl x y v <-> mentioned l x y /\ v = reported l x y.
Proof.
  intros (_ & A & B) x y v. split.
  - intros [H|H]; [apply A, H|]. apply A in H. destruct H as [(a & b & w & I & S) ->]. split; [|apply reported_swap].
    exists a, b, w. split; [exact I|]. apply same_nets_spec. apply same_nets_spec in S. tauto.
  - intros [M ->]. destruct (B x y M) as (a & b & v & I & S). apply same_nets_spec in S. destruct S as [[-> ->]|[-> ->]].
    + left. destruct (A _ _ _ I) as [_ E]. rewrite <- E. exact I.
    + right. destruct (A _ _ _ I) as [_ E]. rewrite reported_swap, <- E. exact I.
Qed.
Lemma named_sums l capl capl' : sums_of l capl -> sums_of (map named_rep l) capl' -> named_pairs f capl capl'.
Proof.
  intros S S' u w v. rewrite (sums_has _ _ S'), mentioned_f. split.
  - intros [(x & y & -> & -> & M) ->]. exists x, y. split; [reflexivity|]. split; [reflexivity|]. apply (sums_has _ _ S). rewrite reported_f. auto.
  - intros (x & y & -> & -> & H). apply (sums_has _ _ S) in H. destruct H as [M ->]. rewrite reported_f. split; [eauto|reflexivity].
Qed.

(** networks *)
Lemma net_of_f n i : net_of (named_network f n) i = option_map f (net_of n i).
Proof.
  unfold net_of, named_network. cbn [rnet_nodes]. rewrite <- map_rev. induction (rev (rnet_nodes n)) as [|x l IH]; [reflexivity|].
  cbn [map find rn_id]. destruct (Nat.eqb (rn_id x) i); [reflexivity|exact IH].
Qed.
Lemma reports_f ns : resistor_reports (map (named_network f) ns) = option_map (map named_rep) (resistor_reports ns).
Proof.
  unfold resistor_reports. 
  assert (G : forall l, ER_Spec.all_some (map (option_map named_rep) l) = option_map (map named_rep) (ER_Spec.all_some l)).
  { induction l as [|[x|] l IH]; [reflexivity| |reflexivity]. cbn [map option_map ER_Spec.all_some]. rewrite IH. destruct (ER_Spec.all_some l); reflexivity. }
  rewrite <- G. f_equal. induction ns as [|n ns IH]; [reflexivity|]. cbn [map flat_map]. rewrite map_app, IH. f_equal.
  rewrite map_map. apply map_ext. intros e. unfold element_report. rewrite !net_of_f. destruct (net_of n (re_a e)), (net_of n (re_b e)); reflexivity.
Qed.

(** tables *)
Lemma dget_in_table {A B} (g : A -> B) (d : dict nat (list A)) k : dget (in_table g d) k = option_map (map g) (dget d k).
Proof. induction d as [|[k' v] d IH]; [reflexivity|]. cbn [in_table map dget fst snd]. destruct (eq_dec k k'); [reflexivity|exact IH]. Qed.

Section Engine.
Context {pt : Type}.
Variables (area : OV_Model.region pt -> Qc) (dbu : Qc) (substrate : string).
Variables (overlaps sideoverlaps : dict string (dict string Qc)) (substrate_caps : list string).
Variable sidewalls : dict string (Qc * Qc).
Variable cut : SF_Model.spoly -> list SF_Model.spoly -> list SF_Model.spoly.
Variable fringe_cap : Z -> Z -> Z -> Qc -> Qc -> option Qc.
Variable shield_top : Z.
Hypothesis fsub : f substrate = substrate.
Hypothesis fnone : f EmptyString = EmptyString.
Hypothesis fcut : forall p s, cut (named_spoly f p) (map (named_spoly f) s) = map (named_spoly f) (cut p s).
Variable names : list string.

Definition named_entry (e : LV_Model.entry) : LV_Model.entry :=
  match e with
  | LV_Model.EOverlap (OverlapCap (a, n, b, m) v s u) => LV_Model.EOverlap (OverlapCap (a, f n, b, f m) v s u)
  | LV_Model.ESidewall (SidewallCap (a, n, m) v d l) => LV_Model.ESidewall (SidewallCap (a, f n, f m) v d l)
  | LV_Model.ESideoverlap (SideOverlapCap (a, n, b, m) v) => LV_Model.ESideoverlap (SideOverlapCap (a, f n, b, f m) v)
  end.
Lemma rep_named es : rep (map named_entry es) = map named_rep (rep es).
Proof. unfold rep. rewrite !map_map. apply map_ext. intros [[[[[a n] b] m] v s u]|[[[a n] m] v d l]|[[[[a n] b] m] v]]; reflexivity. Qed.

(** overlaps *)
Definition named_em (e : OV_Model.emitted pt) : OV_Model.emitted pt :=
  let '(a, n, b, m) := ov_key (OV_Model.em_cap e) in
  OV_Model.Emitted (OverlapCap (a, f n, b, f m) (ov_value (OV_Model.em_cap e)) (ov_shielded (OV_Model.em_cap e)) (ov_unshielded (OV_Model.em_cap e)))
    (named_poly f (OV_Model.em_top e)) (OV_Model.em_area e).
Definition named_st (s : OV_Model.st (pt := pt)) : OV_Model.st := OV_Model.St (OV_Model.st_shield s) (map named_em (OV_Model.st_out s)) (OV_Model.st_done s).
Lemma fold_map_hom {A B S} (g : A -> B) (h : S -> S) (step : S -> A -> S) (step' : S -> B -> S) :
  (forall s a, step' (h s) (g a) = h (step s a)) -> forall l s, fold_left step' (map g l) (h s) = h (fold_left step l s).
Proof. intros H. induction l as [|a l IH]; intros s; [reflexivity|]. cbn [map fold_left]. rewrite H. apply IH. Qed.
Lemma visit_named bn nb bottom tn s p : OV_Model.visit area dbu overlaps bn (f nb) bottom tn (named_st s) (named_poly f p) = named_st (OV_Model.visit area dbu overlaps bn nb bottom tn s p).
Proof.
  unfold OV_Model.visit. cbn [named_st OV_Model.st_done OV_Model.st_shield OV_Model.st_out named_poly OV_Model.p_net OV_Model.p_points].
  destruct (OV_Model.st_done s); [reflexivity|]. rewrite eqb_f. destruct (eqb (OV_Model.p_net p) nb); [reflexivity|].
  destruct (OV_Model.spec_for overlaps tn bn) as [c|]; [|reflexivity]. cbv zeta. destruct (qltb _ _); [|reflexivity].
  unfold named_st. cbn [OV_Model.st_shield OV_Model.st_out OV_Model.st_done]. rewrite map_app. reflexivity.
Qed.
Lemma neighbors_named idx p nb :
  OV_Model.neighbors area dbu substrate overlaps names idx (named_poly f p) (in_table (named_poly f) nb) = map named_em (OV_Model.neighbors area dbu substrate overlaps names idx p nb).
Proof.
  unfold OV_Model.neighbors. cbv zeta. set (bn := nth idx names EmptyString).
  replace (if eqb bn substrate then substrate else OV_Model.p_net (named_poly f p)) with (f (if eqb bn substrate then substrate else OV_Model.p_net p))
    by (destruct (eqb bn substrate); [exact fsub|reflexivity]).
  set (nbot := if eqb bn substrate then substrate else OV_Model.p_net p).
  match goal with |- OV_Model.st_out ?a = map named_em (OV_Model.st_out ?b) => change (map named_em (OV_Model.st_out b)) with (OV_Model.st_out (named_st b)); assert (E : a = named_st b); [|rewrite E; reflexivity] end.
  change (OV_Model.St OV_Model.rempty [] false) with (named_st (OV_Model.St OV_Model.rempty [] false)) at 1.
  rewrite <- (map_id (seq (S idx) _)) at 1. apply (fold_map_hom (fun k => k)). intros s k. unfold OV_Model.visit_layer. rewrite dget_in_table.
  destruct (dget nb k) as [ps|]; [|reflexivity]. cbn [option_map]. apply fold_map_hom. intros s' q. apply visit_named.
Qed.
Lemma named_em_entry e : LV_Model.EOverlap (OV_Model.em_cap (named_em e)) = named_entry (LV_Model.EOverlap (OV_Model.em_cap e)).
Proof. destruct e as [[[[[a n] b] m] v s u] tp ar]. reflexivity. Qed.

(** edges *)
Definition named_event (e : SF_Model.event) : SF_Model.event :=
  match e with
  | SF_Model.EvSidewall p => SF_Model.EvSidewall (named_spoly f p)
  | SF_Model.EvFringe c ps sh l => SF_Model.EvFringe c (map (named_spoly f) ps) (map (named_spoly f) sh) (option_map (named_spoly f) l)
  end.
Notation ns := (named_spoly f).
Lemma nearest_named ps : SF_Model.find_nearest (map ns ps) = option_map (fun x => (fst x, ns (snd x))) (SF_Model.find_nearest ps).
Proof.
  unfold SF_Model.find_nearest. destruct ps as [|p ps]; [reflexivity|]. cbn [option_map]. change (ns p :: map ns ps) with (map ns (p :: ps)). cbn [map].
  f_equal. change (ns p :: map ns ps) with (map ns (p :: ps)).
  assert (G : forall l b, fold_left SF_Model.closer (map ns l) (fst b, ns (snd b)) = (fst (fold_left SF_Model.closer l b), ns (snd (fold_left SF_Model.closer l b)))).
  { induction l as [|q l IH]; intros b; [reflexivity|]. cbn [map fold_left]. rewrite <- IH. f_equal. unfold SF_Model.closer. cbn [fst snd].
    change (SF_Model.nearest_edge_distance (ns q)) with (SF_Model.nearest_edge_distance q). destruct b as [[d|] b]; cbn [fst snd]; [|reflexivity].
    destruct (_ <? _)%Z; reflexivity. }
  apply (G (p :: ps) (None, p)).
Qed.
Lemma ns_edge p : SF_Model.nearest_edge (ns p) = SF_Model.nearest_edge p. Proof. reflexivity. Qed.
Definition named_lat (s : SF_Model.lat) : SF_Model.lat := SF_Model.Lat (SF_Model.l_dist s) (SF_Model.l_edge s) (map named_event (SF_Model.l_events s)).
Lemma lateral_named n ins pbc : forall s, fold_left (SF_Model.lateral_step n ins) (in_table ns pbc) (option_map named_lat s) = option_map named_lat (fold_left (SF_Model.lateral_step n ins) pbc s).
Proof.
  induction pbc as [|[k ps] pbc IH]; intros s; [reflexivity|]. cbn [in_table map fold_left fst snd]. rewrite <- IH. f_equal.
  destruct s as [s|]; [|reflexivity]. cbn [option_map SF_Model.lateral_step fst snd]. destruct (Nat.eqb k n || Nat.eqb ins k); [|reflexivity].
  rewrite nearest_named. destruct (SF_Model.find_nearest ps) as [[d p]|]; [|reflexivity]. cbn [option_map fst snd]. rewrite ns_edge.
  cbn [named_lat SF_Model.l_dist SF_Model.l_edge SF_Model.l_events].
  destruct (SF_Model.l_dist s) as [b|].
  - destruct (SF_Model.dist_lt d (Some b)).
    + destruct (SF_Model.nearest_edge p) as [ed|]; [|reflexivity]. cbn [option_map]. unfold named_lat. cbn. destruct (Nat.eqb k n); [reflexivity|]. rewrite map_app. reflexivity.
    + cbn [option_map]. unfold named_lat. cbn. destruct (Nat.eqb k n); [reflexivity|]. rewrite map_app. reflexivity.
  - destruct (SF_Model.nearest_edge p) as [ed|]; [|reflexivity]. cbn [option_map]. unfold named_lat. cbn. destruct (Nat.eqb k n); [reflexivity|]. rewrite map_app. reflexivity.
Qed.
Lemma flat_map_map {A B C} (g : A -> B) (h : B -> list C) l : flat_map h (map g l) = flat_map (fun x => h (g x)) l.
Proof. induction l as [|x l IH]; [reflexivity|]. cbn. rewrite IH. reflexivity. Qed.
Lemma map_flat_map {A B C} (g : B -> C) (h : A -> list B) l : map g (flat_map h l) = flat_map (fun x => map g (h x)) l.
Proof. induction l as [|x l IH]; [reflexivity|]. cbn. rewrite map_app, IH. reflexivity. Qed.
Lemma shields_named n pbc i : SF_Model.layer_shields n (in_table ns pbc) i = map ns (SF_Model.layer_shields n pbc i).
Proof. unfold SF_Model.layer_shields. destruct (Nat.ltb i n); [|reflexivity]. rewrite dget_in_table. destruct (dget pbc i); reflexivity. Qed.
Lemma shield_named n ins pbc l c : SF_Model.fringe_shield n ins (in_table ns pbc) (option_map ns l) c = map ns (SF_Model.fringe_shield n ins pbc l c).
Proof.
  unfold SF_Model.fringe_shield. rewrite map_app. f_equal; [destruct l; reflexivity|]. 
  destruct (Nat.ltb c ins); [|destruct (Nat.ltb ins c); [|reflexivity]]; rewrite map_flat_map; apply flat_map_ext; intros i; apply shields_named.
Qed.
Lemma interval_named n ins pbc : SF_Model.on_interval n ins shield_top (in_table ns pbc) = option_map (map named_event) (SF_Model.on_interval n ins shield_top pbc).
Proof.
  unfold SF_Model.on_interval. change (Some (SF_Model.Lat None None [])) with (option_map named_lat (Some (SF_Model.Lat None None []))) at 1. rewrite lateral_named.
  destruct (fold_left (SF_Model.lateral_step n ins) pbc (Some (SF_Model.Lat None None []))) as [s|]; [|reflexivity].
  cbn [option_map named_lat SF_Model.l_edge SF_Model.l_events]. f_equal. rewrite map_app. f_equal.
  rewrite map_flat_map. unfold in_table at 2. rewrite flat_map_map. apply flat_map_ext. intros [k ps].
  unfold SF_Model.fringe_step. cbn [fst snd]. destruct (Nat.eqb ins k); [reflexivity|]. destruct (Nat.ltb k n); [|reflexivity]. cbn [map named_event].
  set (l := match SF_Model.l_edge s with Some e => Some (SF_Model.lateral_polygon shield_top e) | None => None end).
  assert (L : option_map ns l = l).
  { unfold l. destruct (SF_Model.l_edge s) as [e|]; [|reflexivity]. cbn [option_map]. unfold SF_Model.lateral_polygon, named_spoly. cbn. rewrite fnone. reflexivity. }
  rewrite <- (shield_named n ins pbc l k), L. reflexivity.
Qed.
Lemma edge_named n ins nb : SF_Model.on_edge n ins shield_top (map (fun x => (fst x, in_table ns (snd x))) nb) =
  option_map (map (fun e => (fst e, named_event (snd e)))) (SF_Model.on_edge n ins shield_top nb).
Proof.
  induction nb as [|[[a b] pbc] nb IH]; [reflexivity|]. cbn [map fst snd SF_Model.on_edge]. destruct pbc as [|e pbc]; [exact IH|].
  cbn [in_table map]. destruct (_ <=? _)%Z; [exact IH|].
  change ((fst e, map ns (snd e)) :: map (fun e0 : nat * list SF_Model.spoly => (fst e0, map ns (snd e0))) pbc) with (in_table ns (e :: pbc)).
  rewrite interval_named. destruct (SF_Model.on_interval n ins shield_top (e :: pbc)) as [evs|]; [|reflexivity]. cbn [option_map]. rewrite IH.
  destruct (SF_Model.on_edge n ins shield_top nb) as [r|]; [|reflexivity]. cbn [option_map]. rewrite map_app, !map_map. reflexivity.
Qed.

(** emission *)
Lemma net_of_named layer net : SF_Model.net_of substrate layer (f net) = f (SF_Model.net_of substrate layer net).
Proof. unfold SF_Model.net_of. destruct (eqb layer substrate); [symmetry; exact fsub|reflexivity]. Qed.
Definition named_groups (d : dict string (list SF_Model.spoly)) : dict string (list SF_Model.spoly) := map (fun e => (f (fst e), map ns (snd e))) d.
Lemma dget_groups d k : dget (named_groups d) (f k) = option_map (map ns) (dget d k).
Proof.
  induction d as [|[k' v] d IH]; [reflexivity|]. cbn [named_groups map dget fst snd]. destruct (eq_dec (f k) (f k')) as [E|E], (eq_dec k k') as [E'|E']; try reflexivity.
  - apply inj in E. contradiction.
  - subst. contradiction.
  - exact IH.
Qed.
Lemma dset_groups d k v : dset (named_groups d) (f k) (map ns v) = named_groups (dset d k v).
Proof.
  induction d as [|[k' v'] d IH]; [reflexivity|]. cbn [named_groups map dset fst snd]. destruct (eq_dec (f k) (f k')) as [E|E], (eq_dec k k') as [E'|E'].
  - subst. reflexivity.
  - apply inj in E. contradiction.
  - subst. contradiction.
  - cbn [named_groups map fst snd]. fold (named_groups d). rewrite IH. reflexivity.
Qed.
Lemma group_named inn out sh d p : SF_Model.group_step substrate cut (f inn) out (map ns sh) (named_groups d) (ns p) = named_groups (SF_Model.group_step substrate cut inn out sh d p).
Proof.
  unfold SF_Model.group_step. cbv zeta. change (SF_Model.sp_net (ns p)) with (f (SF_Model.sp_net p)). rewrite net_of_named, eqb_f.
  set (o := SF_Model.net_of substrate out (SF_Model.sp_net p)). destruct (eqb inn o); [reflexivity|].
  assert (G : match dget (named_groups d) (f o) with Some l => l | None => [] end = map ns (match dget d o with Some l => l | None => [] end))
    by (rewrite dget_groups; destruct (dget d o); reflexivity).
  rewrite G. destruct sh as [|s sh].
  - cbn [map]. rewrite <- dset_groups, map_app. reflexivity.
  - cbn [map]. change (ns s :: map ns sh) with (map ns (s :: sh)). rewrite fcut. destruct (cut p (s :: sh)) as [|u us]; [reflexivity|].
    cbn [map]. rewrite <- dset_groups, map_app. f_equal. f_equal. cbn [map]. f_equal. rewrite !map_map. reflexivity.
Qed.
Definition named_so (c : sideoverlap_cap) : sideoverlap_cap := let '(a, n, b, m) := so_key c in SideOverlapCap (a, f n, b, f m) (so_value c).
Definition named_fr (s : SF_Model.fr) : SF_Model.fr := match s with SF_Model.FrRaise => SF_Model.FrRaise | SF_Model.FrDone r caps => SF_Model.FrDone r (map named_so caps) end.
Lemma piece_named il inn ol len oc sc o s p :
  SF_Model.emit_piece fringe_cap il (f inn) ol len oc sc (f o) (named_fr s) (ns p) = named_fr (SF_Model.emit_piece fringe_cap il inn ol len oc sc o s p).
Proof.
  destruct s as [|[|] caps]; [reflexivity|reflexivity|]. unfold SF_Model.emit_piece. cbn [named_fr].
  change (SF_Model.bbox_lo (ns p)) with (SF_Model.bbox_lo p). change (SF_Model.bbox_hi (ns p)) with (SF_Model.bbox_hi p).
  destruct (_ <? _)%Z; [reflexivity|]. destruct (Z.eqb _ _); [reflexivity|]. destruct (fringe_cap _ _ _ _ _) as [v|]; [|reflexivity].
  destruct (qltb _ _); [|reflexivity]. cbn [named_fr]. rewrite map_app. reflexivity.
Qed.
Lemma fringe_named il net ol iv ps sh :
  SF_Model.emit_fringe substrate overlaps sideoverlaps substrate_caps cut fringe_cap il (f net) ol iv (map ns ps) (map ns sh) =
  option_map (map named_so) (SF_Model.emit_fringe substrate overlaps sideoverlaps substrate_caps cut fringe_cap il net ol iv ps sh).
Proof.
  unfold SF_Model.emit_fringe. cbv zeta. rewrite net_of_named. destruct (SF_Model.fringe_specs _ _ _ _ _) as [[oc sc]|]; [|reflexivity].
  set (inn := SF_Model.net_of substrate il net).
  change (@nil (string * list SF_Model.spoly)) with (named_groups []) at 1.
  rewrite (fold_map_hom ns named_groups (SF_Model.group_step substrate cut inn ol sh)) by (intros; apply group_named).
  set (g := fold_left (SF_Model.group_step substrate cut inn ol sh) ps []).
  change (SF_Model.FrDone false []) with (named_fr (SF_Model.FrDone false [])) at 1. unfold named_groups.
  rewrite (fold_map_hom (fun e => (f (fst e), map ns (snd e))) named_fr
     (fun s e => fold_left (SF_Model.emit_piece fringe_cap il inn ol (snd iv - fst iv) oc sc (fst e)) (snd e) s)).
  - destruct (fold_left _ g _) as [|r caps]; reflexivity.
  - intros s [o qs]. cbn [fst snd]. apply fold_map_hom. intros s' q. apply piece_named.
Qed.
Lemma event_named idx net iv ev :
  event_entries dbu substrate overlaps sideoverlaps substrate_caps sidewalls cut fringe_cap names idx (f net) iv (named_event ev) =
  option_map (map named_entry) (event_entries dbu substrate overlaps sideoverlaps substrate_caps sidewalls cut fringe_cap names idx net iv ev).
Proof.
  destruct ev as [p|c ps sh l]; unfold event_entries; cbv zeta; cbn [named_event].
  - unfold SF_Model.emit_sidewall. change (SF_Model.sp_net (ns p)) with (f (SF_Model.sp_net p)). rewrite eqb_f. destruct (eqb net _); [reflexivity|].
    destruct (dget sidewalls _) as [[c off]|]; [|reflexivity]. rewrite ns_edge. destruct (SF_Model.nearest_edge p); [|reflexivity].
    change (SF_Model.bbox_lo (ns p)) with (SF_Model.bbox_lo p). change (SF_Model.bbox_hi (ns p)) with (SF_Model.bbox_hi p). cbv zeta.
    destruct (qeqb _ _); reflexivity.
  - rewrite fringe_named. destruct (SF_Model.emit_fringe _ _ _ _ _ _ _ _ _ _ _ _) as [caps|]; [|reflexivity]. cbn [option_map]. f_equal. rewrite !map_map.
    apply map_ext. intros [[[[a n] b] m] v]. reflexivity.
Qed.
Lemma collect_named {A B} (g : A -> B) (h : A -> option (list LV_Model.entry)) (h' : B -> option (list LV_Model.entry)) l :
  (forall x, h' (g x) = option_map (map named_entry) (h x)) -> collect h' (map g l) = option_map (map named_entry) (collect h l).
Proof.
  intros H. induction l as [|x l IH]; [reflexivity|]. cbn [map collect]. rewrite H, IH. destruct (h x); [|reflexivity]. cbn [option_map].
  destruct (collect h l); [|reflexivity]. cbn [option_map]. rewrite map_app. reflexivity.
Qed.
Lemma edge_entries_named idx c :
  edge_entries dbu substrate overlaps sideoverlaps substrate_caps sidewalls cut fringe_cap shield_top names idx (named_edge f c) =
  option_map (map named_entry) (edge_entries dbu substrate overlaps sideoverlaps substrate_caps sidewalls cut fringe_cap shield_top names idx c).
Proof.
  unfold edge_entries. cbn [named_edge fst snd]. rewrite edge_named. destruct (SF_Model.on_edge _ _ _ (snd c)) as [evs|]; [|reflexivity]. cbn [option_map].
  apply collect_named. intros e. cbn [fst snd]. apply event_named.
Qed.
End Engine.
End Names.

(** ** renamed runs *)
Section Renamed.
Variable f : string -> string.
Hypothesis inj : forall x y, f x = f y -> x = y.
Variables (t : LV_Model.tech) (context_shapes : LV_Model.gds -> option (list LV_Model.shape)) (substrate_shape : list LV_Model.shape).
Notation sh := (named_shape f).
Lemma dget_table {A B} (g : A -> B) (d : dict string (list A)) k : dget (in_table g d) k = option_map (map g) (dget d k).
Proof. induction d as [|[k' v] d IH]; [reflexivity|]. cbn [in_table map dget fst snd]. destruct (eq_dec k k'); [reflexivity|exact IH]. Qed.
Lemma dset_table {A B} (g : A -> B) (d : dict string (list A)) k v : dset (in_table g d) k (map g v) = in_table g (dset d k v).
Proof.
  induction d as [|[k' v'] d IH]; [reflexivity|]. cbn [in_table map dset fst snd]. destruct (eq_dec k k'); [reflexivity|].
  cbn [in_table map fst snd]. fold (in_table g d). rewrite IH. reflexivity.
Qed.
Lemma keys_table {A B} (g : A -> B) (d : dict string (list A)) : dkeys (in_table g d) = dkeys d.
Proof. unfold dkeys, in_table. rewrite map_map. reflexivity. Qed.
Lemma regions_named metals : LV_Model.layer_regions t (fun p => option_map (map sh) (context_shapes p)) (map sh substrate_shape) metals =
  option_map (in_table sh) (LV_Model.layer_regions t context_shapes substrate_shape metals).
Proof.
  unfold LV_Model.layer_regions. change (Some [("VSUBS"%string, map sh substrate_shape)]) with (option_map (in_table sh) (Some [("VSUBS"%string, substrate_shape)])).
  generalize (Some [("VSUBS"%string, substrate_shape)]). induction metals as [|m ms IH]; intros d; [reflexivity|]. cbn [fold_left]. rewrite <- IH. f_equal.
  destruct d as [d|]; [|reflexivity]. cbn [option_map LV_Model.region_step]. destruct (LV_Model.gds_pair t m) as [p|] eqn:Eg; [|reflexivity].
  destruct (dget (LV_Model.canonical_layer_name_by_gds_pair t) p) as [cn|]; [|reflexivity]. unfold LV_Model.layer_shapes. rewrite Eg.
  destruct (context_shapes p) as [s|]; [|reflexivity]. cbn [option_map]. f_equal. rewrite <- dset_table, map_app. f_equal. f_equal.
  rewrite dget_table. destruct (dget d cn); reflexivity.
Qed.
End Renamed.

(** ** another order *)
Definition alike (a b : option (list LV_Model.entry)) : Prop :=
  match a, b with Some x, Some y => Permutation (rep x) (rep y) | None, None => True | _, _ => False end.
Lemma alike_refl a : alike a a.
Proof. destruct a; cbn; auto. Qed.
Lemma alike_trans a b c : alike a b -> alike b c -> alike a c.
Proof. destruct a, b, c; cbn; try tauto. apply Permutation_trans. Qed.
Lemma collect_alike {A B} (R : A -> B -> Prop) (h : A -> option (list LV_Model.entry)) (h' : B -> option (list LV_Model.entry)) l l' :
  (forall x y, R x y -> alike (h x) (h' y)) -> Forall2 R l l' -> alike (collect h l) (collect h' l').
Proof.
  intros H. induction 1 as [|x y l l' Hxy _ IH]; [apply alike_refl|]. cbn [collect]. specialize (H x y Hxy).
  destruct (h x), (h' y); cbn in H; try contradiction; [|exact I]. destruct (collect h l), (collect h' l'); cbn in *; try tauto.
  rewrite !rep_app. now apply Permutation_app.
Qed.
Lemma collect_alike_perm {A} (h : A -> option (list LV_Model.entry)) l l' : Permutation l l' -> alike (collect h l) (collect h l').
Proof.
  intros P. destruct (collect h l) as [a|] eqn:E, (collect h l') as [b|] eqn:E'; cbn; auto.
  - destruct (collect_perm h _ _ P _ E') as (e & E1 & Q). congruence.
  - destruct (collect_perm h _ _ (Permutation_sym P) _ E) as (e & E1 & Q). congruence.
  - destruct (collect_perm h _ _ P _ E') as (e & E1 & Q). congruence.
Qed.

Section Order.
Context {pt : Type}.
Variables (area : OV_Model.region pt -> Qc) (dbu : Qc) (substrate : string).
Variables (overlaps sideoverlaps : dict string (dict string Qc)) (substrate_caps : list string).
Variable sidewalls : dict string (Qc * Qc).
Variable cut : SF_Model.spoly -> list SF_Model.spoly -> list SF_Model.spoly.
Variable fringe_cap : Z -> Z -> Z -> Qc -> Qc -> option Qc.
Variable shield_top : Z.
Hypothesis aext : forall a b, (forall p, a p = b p) -> area a = area b.

(** overlaps *)
Definition steq (s s' : OV_Model.st (pt := pt)) : Prop :=
  (forall p, OV_Model.st_shield s p = OV_Model.st_shield s' p) /\
  Permutation (map OV_Model.em_cap (OV_Model.st_out s)) (map OV_Model.em_cap (OV_Model.st_out s')) /\ OV_Model.st_done s = OV_Model.st_done s'.
Lemma steq_refl s : steq s s. Proof. split; [|split]; auto. Qed.
Lemma steq_trans a b c : steq a b -> steq b c -> steq a c.
Proof. intros (A & B & C) (A' & B' & C'). split; [intros p; now rewrite A|]. split; [eapply Permutation_trans; eauto|congruence]. Qed.
Section Visit.
Variables (bn nb : string) (bottom : OV_Model.region pt) (tn : string).
Notation visit := (OV_Model.visit area dbu overlaps bn nb bottom tn).
Lemma visit_eq s s' p : steq s s' -> steq (visit s p) (visit s' p).
Proof.
  intros H. destruct H as (A & B & C). unfold OV_Model.visit. rewrite <- C. destruct (OV_Model.st_done s) eqn:D; [split; [|split]; congruence || auto|].
  destruct (eqb (OV_Model.p_net p) nb); [split; [|split]; congruence || auto|].
  destruct (OV_Model.spec_for overlaps tn bn) as [c|]; [|split; [|split]; cbn; auto]. cbv zeta.
  rewrite (aext (OV_Model.rsub (OV_Model.rand (OV_Model.p_points p) bottom) (OV_Model.st_shield s'))
             (OV_Model.rsub (OV_Model.rand (OV_Model.p_points p) bottom) (OV_Model.st_shield s))) by (intros q; unfold OV_Model.rsub; rewrite A; reflexivity).
  split; [|split]; cbn [OV_Model.st_shield OV_Model.st_out OV_Model.st_done]; [intros q; unfold OV_Model.rinsert; rewrite A; reflexivity| |reflexivity].
  destruct (qltb _ _); [|exact B]. rewrite !map_app. cbn [map OV_Model.em_cap]. now apply Permutation_app_tail.
Qed.
Lemma visits_eq ps : forall s s', steq s s' -> steq (fold_left visit ps s) (fold_left visit ps s').
Proof. induction ps as [|p ps IH]; intros s s' H; [exact H|]. apply IH. now apply visit_eq. Qed.
Lemma visit_swap s p q : (forall x, OV_Model.p_points p x = true -> OV_Model.p_points q x = true -> False) ->
  steq (visit (visit s p) q) (visit (visit s q) p).
Proof.
  intros D. unfold OV_Model.visit at 2 4. destruct (OV_Model.st_done s) eqn:Dn.
  { unfold OV_Model.visit. rewrite Dn. apply steq_refl. }
  destruct (eqb (OV_Model.p_net p) nb) eqn:Ep.
  { destruct (eqb (OV_Model.p_net q) nb) eqn:Eq.
    - unfold OV_Model.visit. rewrite Dn, Ep, Eq. apply steq_refl.
    - unfold OV_Model.visit. rewrite Dn, Eq. destruct (OV_Model.spec_for overlaps tn bn); cbv zeta; cbn [OV_Model.st_done]; [rewrite Ep|]; apply steq_refl. }
  destruct (eqb (OV_Model.p_net q) nb) eqn:Eq.
  { unfold OV_Model.visit. rewrite Dn, Ep. destruct (OV_Model.spec_for overlaps tn bn); cbv zeta; cbn [OV_Model.st_done]; [rewrite Eq|]; apply steq_refl. }
  unfold OV_Model.visit. destruct (OV_Model.spec_for overlaps tn bn) as [c|]; cbv zeta; cbn [OV_Model.st_done OV_Model.st_shield OV_Model.st_out]; [|apply steq_refl].
  rewrite Ep, Eq.
  assert (G : forall a b, (forall x, OV_Model.p_points a x = true -> OV_Model.p_points b x = true -> False) ->
     area (OV_Model.rsub (OV_Model.rand (OV_Model.p_points a) bottom) (OV_Model.rinsert (OV_Model.st_shield s) (OV_Model.p_points b))) =
     area (OV_Model.rsub (OV_Model.rand (OV_Model.p_points a) bottom) (OV_Model.st_shield s))).
  { intros a b H. apply aext. intros x. unfold OV_Model.rsub, OV_Model.rand, OV_Model.rinsert. specialize (H x).
    destruct (OV_Model.p_points a x), (OV_Model.p_points b x), (bottom x), (OV_Model.st_shield s x); cbn; try reflexivity; exfalso; now apply H. }
  rewrite (G q p) by (intros x H1 H2; exact (D x H2 H1)). rewrite (G p q D).
  split; [|split]; cbn [OV_Model.st_shield OV_Model.st_out OV_Model.st_done]; [|  |reflexivity].
  - intros x. unfold OV_Model.rinsert. rewrite <- !orb_assoc. f_equal. apply orb_comm.
  - destruct (qltb 0 (area (OV_Model.rsub (OV_Model.rand (OV_Model.p_points p) bottom) (OV_Model.st_shield s)) * _ * _ / _)),
             (qltb 0 (area (OV_Model.rsub (OV_Model.rand (OV_Model.p_points q) bottom) (OV_Model.st_shield s)) * _ * _ / _));
      rewrite ?map_app; cbn [map OV_Model.em_cap]; rewrite <- ?app_assoc; try apply Permutation_refl.
    apply Permutation_app_head. cbn [app]. apply perm_swap.
Qed.
Notation apart := (fun p q : OV_Model.poly pt => forall x, OV_Model.p_points p x = true -> OV_Model.p_points q x = true -> False).
Lemma pairs_perm l l' : Permutation l l' -> ForallOrdPairs apart l -> ForallOrdPairs apart l'.
Proof.
  induction 1 as [|x l l' P IH|x y l|l m n P1 IH1 P2 IH2]; intros H.
  - constructor.
  - inversion H; subst. constructor; [|auto]. eapply Permutation_Forall; eauto.
  - inversion H as [|? ? F H']; subst. inversion H' as [|? ? F' H'']; subst. inversion F; subst. constructor; [|constructor; assumption].
    constructor; [|assumption]. intros z A B. exact (H2 z B A).
  - auto.
Qed.
Lemma visits_perm ps ps' : Permutation ps ps' -> ForallOrdPairs apart ps -> forall s, steq (fold_left visit ps s) (fold_left visit ps' s).
Proof.
  induction 1 as [|x l l' P IH|x y l|l m n P1 IH1 P2 IH2]; intros H s.
  - apply steq_refl.
  - cbn [fold_left]. inversion H; subst. now apply IH.
  - cbn [fold_left]. apply visits_eq. apply visit_swap. inversion H as [|? ? F _]; subst. inversion F; subst. assumption.
  - eapply steq_trans; [apply IH1, H|]. apply IH2. eapply pairs_perm; eauto.
Qed.
End Visit.
Variable names : list string.
Lemma neighbors_order idx p nb nb' : layers_disjoint nb -> same_neighbors nb nb' ->
  Permutation (map OV_Model.em_cap (OV_Model.neighbors area dbu substrate overlaps names idx p nb))
              (map OV_Model.em_cap (OV_Model.neighbors area dbu substrate overlaps names idx p nb')).
Proof.
  intros D S. unfold OV_Model.neighbors. cbv zeta. generalize (nth idx names EmptyString) as bn. intros bn.
  generalize (if eqb bn substrate then substrate else OV_Model.p_net p) as nbot. intros nbot.
  enough (G : forall ks s s', steq s s' -> steq
     (fold_left (OV_Model.visit_layer area dbu overlaps names bn nbot (OV_Model.p_points p) nb) ks s)
     (fold_left (OV_Model.visit_layer area dbu overlaps names bn nbot (OV_Model.p_points p) nb') ks s')) by apply G, steq_refl.
  induction ks as [|k ks IH]; intros s s' H; [exact H|]. cbn [fold_left]. apply IH. unfold OV_Model.visit_layer. specialize (S k). specialize (D k).
  destruct (dget nb k) as [ps|], (dget nb' k) as [ps'|]; try contradiction; [|exact H].
  eapply steq_trans; [apply visits_eq, H|]. apply visits_perm; [exact S|]. apply D. reflexivity.
Qed.
Definition call_entries (idx : nat) (c : OV_Model.poly pt * dict nat (list (OV_Model.poly pt))) : list LV_Model.entry :=
  map (fun e => LV_Model.EOverlap (OV_Model.em_cap e)) (OV_Model.neighbors area dbu substrate overlaps names idx (fst c) (snd c)).
Lemma rep_flat {A} (h : A -> list LV_Model.entry) l : rep (flat_map h l) = flat_map (fun x => rep (h x)) l.
Proof. induction l as [|x l IH]; [reflexivity|]. cbn. rewrite rep_app, IH. reflexivity. Qed.
Lemma polygons_order idx l l' : same_polygons l l' -> Permutation (rep (flat_map (call_entries idx) l)) (rep (flat_map (call_entries idx) l')).
Proof.
  intros (mid & P & F). rewrite !rep_flat. eapply Permutation_trans; [apply Permutation_flat_map, P|]. clear P.
  induction F as [|c c' mid l0 [H1 H2] _ IH]; [apply Permutation_refl|]. 
  assert (Q : Permutation (rep (call_entries idx c)) (rep (call_entries idx c'))).
  { unfold call_entries. rewrite <- H1. destruct H2 as [<-|[D S]]; [apply Permutation_refl|].
    pose proof (neighbors_order idx (fst c) _ _ D S) as N. unfold rep. apply Permutation_map.
    rewrite <- (map_map OV_Model.em_cap LV_Model.EOverlap), <- (map_map OV_Model.em_cap LV_Model.EOverlap). apply Permutation_map, N. }
  cbn [flat_map]. apply Permutation_app; [exact Q|exact IH].
Qed.

(** edges *)
Definition interval_entries (idx : nat) (net : string) (x : (Z * Z) * dict nat (list SF_Model.spoly)) : option (list LV_Model.entry) :=
  match snd x with
  | [] => Some []
  | pbc => if (snd (fst x) - fst (fst x) <=? 1)%Z then Some []
           else match SF_Model.on_interval (List.length names) idx shield_top pbc with
                | None => None
                | Some evs => collect (fun e => event_entries dbu substrate overlaps sideoverlaps substrate_caps sidewalls cut fringe_cap names idx net (fst x) e) evs
                end
  end.
Lemma edge_intervals idx c :
  edge_entries dbu substrate overlaps sideoverlaps substrate_caps sidewalls cut fringe_cap shield_top names idx c = collect (interval_entries idx (fst c)) (snd c).
Proof.
  destruct c as [net nb]. unfold edge_entries. cbn [fst snd]. induction nb as [|[[a b] pbc] nb IH]; [reflexivity|].
  cbn [SF_Model.on_edge collect]. unfold interval_entries at 1. cbn [fst snd]. destruct pbc as [|e pbc].
  - rewrite IH. destruct (collect _ nb); reflexivity.
  - destruct (_ <=? _)%Z; [rewrite IH; destruct (collect _ nb); reflexivity|].
    destruct (SF_Model.on_interval _ _ _ (e :: pbc)) as [evs|]; [|reflexivity].
    rewrite <- IH. destruct (SF_Model.on_edge _ _ _ nb) as [r|].
    + rewrite collect_app, collect_pair. cbn [fst snd]. reflexivity.
    + destruct (collect _ evs); reflexivity.
Qed.
Hypothesis cut_perm : forall p s s', Permutation s s' -> Permutation (cut p s) (cut p s').
(** the nearest neighbour without ties *)
Lemma nearest_perm ps ps' : Permutation ps ps' -> Forall SF_Spec.proper ps ->
  ForallOrdPairs (fun p q => forall d, SF_Spec.distance p d -> SF_Spec.distance q d -> False) ps ->
  SF_Model.find_nearest ps = SF_Model.find_nearest ps'.
Proof.
  intros P Hp D. destruct ps as [|p0 ps0] eqn:E0; [apply Permutation_nil in P; subst; reflexivity|]. rewrite <- E0 in *.
  assert (N : ps <> []) by congruence. assert (N' : ps' <> []) by (intros ->; apply Permutation_sym, Permutation_nil in P; contradiction).
  destruct (SF_Proofs.find_nearest_ok _ N) as (d & p & E & H). destruct (SF_Proofs.find_nearest_ok _ N') as (d' & p' & E' & H'). rewrite E, E'.
  pose proof (SF_Proofs.nearest_of_min _ _ _ H) as [I L]. pose proof (SF_Proofs.nearest_of_min _ _ _ H') as [I' L']. destruct H as [Hd _], H' as [Hd' _].
  assert (J : In p' ps) by (eapply Permutation_in; [symmetry; exact P|exact I']).
  assert (J' : In p ps') by (eapply Permutation_in; [exact P|exact I]).
  assert (Ed : d = d') by (specialize (L _ J); specialize (L' _ J'); lia).
  rewrite Forall_forall in Hp. destruct (ForallOrdPairs_In D p p' I J) as [->|[C|C]]; [congruence| |]; exfalso.
  - apply (C d); apply SF_Proofs.ned_distance; auto; congruence.
  - apply (C d); apply SF_Proofs.ned_distance; auto; congruence.
Qed.
Notation same_lists := (Forall2 (fun e e' : nat * list SF_Model.spoly => fst e = fst e' /\ Permutation (snd e) (snd e'))).
Lemma lateral_order n idx pbc pbc' : same_lists pbc pbc' -> no_ties n idx pbc ->
  forall s, fold_left (SF_Model.lateral_step n idx) pbc s = fold_left (SF_Model.lateral_step n idx) pbc' s.
Proof.
  induction 1 as [|[k ps] [k' ps'] pbc pbc' [E P] _ IH]; intros T s; [reflexivity|]. cbn [fst snd] in E, P. subst k'. cbn [fold_left].
  assert (Q : SF_Model.lateral_step n idx s (k, ps) = SF_Model.lateral_step n idx s (k, ps')).
  { destruct s as [s|]; [|reflexivity]. cbn [SF_Model.lateral_step fst snd]. destruct (Nat.eqb k n || Nat.eqb idx k) eqn:K; [|reflexivity].
    destruct (T k ps) as [T1 T2]; [now left| |rewrite (nearest_perm _ _ P T1 T2); reflexivity].
    apply orb_prop in K. destruct K as [K|K]; apply Nat.eqb_eq in K; auto. }
  rewrite Q. apply IH. intros k0 ps0 I. apply T. now right.
Qed.
Lemma dget_order pbc pbc' k : same_lists pbc pbc' ->
  match dget pbc k, dget pbc' k with Some a, Some b => Permutation a b | None, None => True | _, _ => False end.
Proof.
  induction 1 as [|[k0 ps] [k0' ps'] pbc pbc' [E P] _ IH]; [exact I|]. cbn [fst snd] in E, P. subst k0'. cbn [dget]. destruct (eq_dec k k0); [exact P|exact IH].
Qed.
Lemma flat_perm {A B} (g g' : A -> list B) l : (forall x, Permutation (g x) (g' x)) -> Permutation (flat_map g l) (flat_map g' l).
Proof. intros H. induction l as [|x l IH]; [constructor|]. cbn. now apply Permutation_app. Qed.
Lemma shield_order n idx pbc pbc' lat c : same_lists pbc pbc' -> Permutation (SF_Model.fringe_shield n idx pbc lat c) (SF_Model.fringe_shield n idx pbc' lat c).
Proof.
  intros F. unfold SF_Model.fringe_shield. apply Permutation_app_head.
  assert (G : forall i, Permutation (SF_Model.layer_shields n pbc i) (SF_Model.layer_shields n pbc' i)).
  { intros i. unfold SF_Model.layer_shields. destruct (Nat.ltb i n); [|constructor]. pose proof (dget_order pbc pbc' i F) as D.
    destruct (dget pbc i), (dget pbc' i); try contradiction; [exact D|constructor]. }
  destruct (Nat.ltb c idx); [|destruct (Nat.ltb idx c); [|constructor]]; apply flat_perm; exact G.
Qed.
Definition same_event (n idx : nat) (e e' : SF_Model.event) : Prop :=
  match e, e' with
  | SF_Model.EvSidewall p, SF_Model.EvSidewall p' => p = p'
  | SF_Model.EvFringe c ps sh _, SF_Model.EvFringe c' ps' sh' _ => c = c' /\ Permutation ps ps' /\ Permutation sh sh' /\ (forall p, In p ps -> thick cut p)
  | _, _ => False
  end.
Lemma interval_order n idx pbc pbc' : same_lists pbc pbc' -> no_ties n idx pbc ->
  (forall k ps p, In (k, ps) pbc -> k <> idx -> (k < n)%nat -> In p ps -> thick cut p) ->
  match SF_Model.on_interval n idx shield_top pbc, SF_Model.on_interval n idx shield_top pbc' with
  | Some a, Some b => Forall2 (same_event n idx) a b | None, None => True | _, _ => False end.
Proof.
  intros F T K. unfold SF_Model.on_interval. rewrite <- (lateral_order _ _ _ _ F T).
  destruct (fold_left (SF_Model.lateral_step n idx) pbc (Some (SF_Model.Lat None None []))) as [s|] eqn:Es; [|exact I]. cbv zeta.
  set (lat := match SF_Model.l_edge s with Some e => _ | None => _ end).
  apply Forall2_app.
  - assert (W : forall l s0 s1, (forall e, In e (SF_Model.l_events s0) -> exists p, e = SF_Model.EvSidewall p) ->
       fold_left (SF_Model.lateral_step n idx) l (Some s0) = Some s1 -> forall e, In e (SF_Model.l_events s1) -> exists p, e = SF_Model.EvSidewall p).
    { induction l as [|[k ps] l IH]; intros s0 s1 H0 E1; [injection E1 as <-; exact H0|]. cbn [fold_left] in E1.
      destruct (SF_Model.lateral_step n idx (Some s0) (k, ps)) as [s2|] eqn:E2; [|rewrite SF_Proofs.lateral_none in E1; discriminate].
      apply (IH s2 s1); [|exact E1]. clear IH E1. cbn [SF_Model.lateral_step fst snd] in E2. destruct (Nat.eqb k n || Nat.eqb idx k); [|injection E2 as <-; exact H0].
      destruct (SF_Model.find_nearest ps) as [[d p]|]; [|discriminate].
      destruct (match SF_Model.l_dist s0 with Some b => _ | None => _ end) as [[d' ed']|]; [|discriminate]. injection E2 as <-. cbn [SF_Model.l_events].
      destruct (Nat.eqb k n); [exact H0|]. intros e He. apply in_app_iff in He. destruct He as [He|[<-|[]]]; [auto|eauto]. }
    specialize (W pbc (SF_Model.Lat None None []) s). cbn [SF_Model.l_events] in W. specialize (W (fun e (H : In e []) => match H with end) Es).
    clear -W. induction (SF_Model.l_events s) as [|e l IH]; constructor; [|apply IH; intros e' He; apply W; now right].
    destruct (W e (or_introl eq_refl)) as [p ->]. reflexivity.
  - assert (G : forall l l', same_lists l l' -> (forall k ps, In (k, ps) l -> In (k, ps) pbc) ->
       Forall2 (same_event n idx) (flat_map (SF_Model.fringe_step n idx pbc lat) l) (flat_map (SF_Model.fringe_step n idx pbc' lat) l')).
    { induction 1 as [|[k ps] [k' ps'] l l' [E P] _ IH]; intros Sub; [constructor|]. cbn [fst snd] in E, P. subst k'. cbn [flat_map].
      apply Forall2_app; [|apply IH; intros k0 ps0 I; apply Sub; now right]. unfold SF_Model.fringe_step. cbn [fst snd].
      destruct (Nat.eqb idx k) eqn:Ek; [constructor|]. destruct (Nat.ltb k n) eqn:Kn; [|constructor]. constructor; [|constructor].
      cbn [same_event]. split; [reflexivity|]. split; [exact P|]. split; [apply shield_order, F|]. intros p Hp.
      apply Nat.eqb_neq in Ek. apply Nat.ltb_lt in Kn. apply (K k ps p); auto. apply Sub. now left. }
    apply G; auto.
Qed.
(** fringes without thin parts *)
Lemma pieces_order sub inn out sh sh' ps ps' : Permutation sh sh' -> Permutation ps ps' ->
  Permutation (SF_Spec.pieces cut sub inn out sh ps) (SF_Spec.pieces cut sub inn out sh' ps').
Proof.
  intros Ps Pp. unfold SF_Spec.pieces. eapply Permutation_trans; [apply Permutation_flat_map, Pp|]. apply flat_perm. intros p.
  destruct (eqb inn (SF_Spec.outside_net sub out p)); [constructor|]. apply Permutation_map. unfold SF_Spec.unshielded.
  destruct sh as [|s sh], sh' as [|s' sh']; [constructor; constructor| | |apply cut_perm, Ps].
  - apply Permutation_nil in Ps. discriminate.
  - apply Permutation_sym, Permutation_nil in Ps. discriminate.
Qed.
Lemma piece_fold_all il inn ol len oc sc l : forallb (fun e => negb (SF_Spec.thin e)) l = true -> forall caps,
  fold_left (SF_Proofs.piece_step fringe_cap il inn ol len oc sc) l (SF_Model.FrDone false caps) =
  if forallb (fun e => match fringe_cap len (SF_Spec.near (snd e)) (SF_Spec.far (snd e)) oc sc with Some _ => true | None => false end) l
  then SF_Model.FrDone false (caps ++ flat_map (SF_Spec.cap_of fringe_cap il inn ol len oc sc) l) else SF_Model.FrRaise.
Proof.
  induction l as [|e l IH]; intros H caps; [cbn; now rewrite app_nil_r|]. cbn [forallb] in H. apply andb_prop in H. destruct H as [H1 H2]. apply negb_true_iff in H1.
  cbn [fold_left forallb flat_map]. destruct (fringe_cap len (SF_Spec.near (snd e)) (SF_Spec.far (snd e)) oc sc) as [v|] eqn:E.
  - rewrite SF_Proofs.piece_step_ok by congruence. rewrite H1, (IH H2), app_assoc. reflexivity.
  - assert (R : SF_Proofs.piece_step fringe_cap il inn ol len oc sc (SF_Model.FrDone false caps) e = SF_Model.FrRaise).
    { unfold SF_Proofs.piece_step, SF_Model.emit_piece.
      change (SF_Model.bbox_lo (SF_Model.SPoly (fst e) (snd e))) with (SF_Model.bbox_lo (SF_Model.SPoly EmptyString (snd e))).
      change (SF_Model.bbox_hi (SF_Model.SPoly (fst e) (snd e))) with (SF_Model.bbox_hi (SF_Model.SPoly EmptyString (snd e))).
      assert (N : (if (SF_Model.bbox_lo (SF_Model.SPoly EmptyString (snd e)) <? 0)%Z then 0%Z else SF_Model.bbox_lo (SF_Model.SPoly EmptyString (snd e))) = SF_Spec.near (snd e)).
      { unfold SF_Spec.near. destruct (Z.ltb_spec (SF_Model.bbox_lo (SF_Model.SPoly EmptyString (snd e))) 0); lia. }
      assert (F : (if (SF_Model.bbox_hi (SF_Model.SPoly EmptyString (snd e)) <? 0)%Z then 0%Z else SF_Model.bbox_hi (SF_Model.SPoly EmptyString (snd e))) = SF_Spec.far (snd e)).
      { unfold SF_Spec.far. destruct (Z.ltb_spec (SF_Model.bbox_hi (SF_Model.SPoly EmptyString (snd e))) 0); lia. }
      rewrite N, F. destruct (SF_Spec.far (snd e) <? SF_Spec.near (snd e))%Z; [reflexivity|]. unfold SF_Spec.thin in H1. rewrite H1, E. reflexivity. }
    rewrite R. clear. induction l; auto.
Qed.
Lemma forallb_perm {A} (b : A -> bool) l l' : Permutation l l' -> forallb b l = forallb b l'.
Proof. induction 1 as [|x l l' _ IH|x y l|l m n _ IH1 _ IH2]; cbn; [reflexivity|now rewrite IH|now rewrite !andb_assoc, (andb_comm (b x))|congruence]. Qed.
Lemma fringe_order il net ol iv ps ps' sh sh' : Permutation ps ps' -> Permutation sh sh' -> (forall p, In p ps -> thick cut p) ->
  match SF_Model.emit_fringe substrate overlaps sideoverlaps substrate_caps cut fringe_cap il net ol iv ps sh,
        SF_Model.emit_fringe substrate overlaps sideoverlaps substrate_caps cut fringe_cap il net ol iv ps' sh' with
  | Some a, Some b => Permutation a b | None, None => True | _, _ => False end.
Proof.
  intros Pp Ps K. unfold SF_Model.emit_fringe. cbv zeta. destruct (SF_Model.fringe_specs _ _ _ _ _) as [[oc sc]|]; [|exact I]. rewrite !SF_Proofs.emit_flat.
  set (inn := SF_Model.net_of substrate il net). set (len := (snd iv - fst iv)%Z).
  pose proof (SF_Proofs.group_perm cut substrate inn ol sh ps []) as G. pose proof (SF_Proofs.group_perm cut substrate inn ol sh' ps' []) as G'.
  change (SF_Proofs.flatten [] ++ SF_Spec.pieces cut substrate inn ol sh ps) with (SF_Spec.pieces cut substrate inn ol sh ps) in G.
  change (SF_Proofs.flatten [] ++ SF_Spec.pieces cut substrate inn ol sh' ps') with (SF_Spec.pieces cut substrate inn ol sh' ps') in G'.
  set (o := SF_Proofs.flatten (fold_left (SF_Model.group_step substrate cut inn ol sh) ps [])) in *.
  set (o' := SF_Proofs.flatten (fold_left (SF_Model.group_step substrate cut inn ol sh') ps' [])) in *.
  assert (Po : Permutation o o').
  { eapply Permutation_trans; [exact G|]. eapply Permutation_trans; [apply pieces_order; eauto|]. symmetry. exact G'. }
  assert (T : forallb (fun e => negb (SF_Spec.thin e)) o = true).
  { apply forallb_forall. intros e He. apply (Permutation_in _ G) in He. unfold SF_Spec.pieces in He. apply in_flat_map in He. destruct He as (p & Hp & He).
    destruct (eqb inn (SF_Spec.outside_net substrate ol p)); [destruct He|]. apply in_map_iff in He. destruct He as (q & <- & Hq).
    specialize (K p Hp sh q Hq). unfold SF_Spec.thin. cbn [snd]. apply negb_true_iff, Z.eqb_neq. lia. }
  rewrite piece_fold_all by exact T. rewrite piece_fold_all by (rewrite <- (forallb_perm _ _ _ Po); exact T).
  rewrite (forallb_perm _ _ _ Po). destruct (forallb _ o'); [|exact I]. cbn [app]. now apply Permutation_flat_map.
Qed.
Lemma event_order n idx net iv e e' : same_event n idx e e' ->
  alike (event_entries dbu substrate overlaps sideoverlaps substrate_caps sidewalls cut fringe_cap names idx net iv e)
        (event_entries dbu substrate overlaps sideoverlaps substrate_caps sidewalls cut fringe_cap names idx net iv e').
Proof.
  destruct e as [p|c ps sh l], e' as [p'|c' ps' sh' l']; cbn [same_event]; try contradiction; [intros ->; apply alike_refl|].
  intros (<- & Pp & Ps & K). unfold event_entries. cbv zeta.
  pose proof (fringe_order (nth idx names EmptyString) net (nth c names EmptyString) iv ps ps' sh sh' Pp Ps K) as H.
  destruct (SF_Model.emit_fringe _ _ _ _ _ _ _ _ _ _ ps sh), (SF_Model.emit_fringe _ _ _ _ _ _ _ _ _ _ ps' sh'); try contradiction; [|exact I].
  cbn [alike]. unfold rep. now apply Permutation_map, Permutation_map.
Qed.
Lemma one_interval_order idx net x x' : same_interval cut (List.length names) idx x x' -> alike (interval_entries idx net x) (interval_entries idx net x').
Proof.
  destruct x as [iv pbc], x' as [iv' pbc']. intros [E H]. cbn [fst snd] in E, H. subst iv'. destruct H as [<-|(F & T & K)]; [apply alike_refl|].
  unfold interval_entries. cbn [fst snd]. pose proof (interval_order _ _ _ _ F T K) as H.
  destruct F as [|e e' pbc pbc' He F]; [apply alike_refl|]. destruct (_ <=? _)%Z; [apply alike_refl|].
  destruct (SF_Model.on_interval _ _ _ (e :: pbc)) as [a|], (SF_Model.on_interval _ _ _ (e' :: pbc')) as [b|]; try contradiction; [|exact I].
  eapply collect_alike; [|exact H]. intros ev ev' Hev. eapply event_order, Hev.
Qed.
Lemma edges_order idx l l' : same_edges cut (List.length names) idx l l' ->
  alike (collect (edge_entries dbu substrate overlaps sideoverlaps substrate_caps sidewalls cut fringe_cap shield_top names idx) l)
        (collect (edge_entries dbu substrate overlaps sideoverlaps substrate_caps sidewalls cut fringe_cap shield_top names idx) l').
Proof.
  intros (mid & P & F). eapply alike_trans; [apply collect_alike_perm, P|]. eapply collect_alike; [|exact F].
  intros c c' [E (m & Q & F')]. rewrite !edge_intervals, E. eapply alike_trans; [apply collect_alike_perm, Q|].
  eapply collect_alike; [|exact F']. intros x x'. apply one_interval_order.
Qed.
End Order.
