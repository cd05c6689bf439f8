(** Proofs about a finer database unit. *)
From Coq Require Import String ZArith Lia.
From Verif Require Import PyBase PyLib QcLra ER_Model E2_Model SY_Spec SY_Proofs DU_Spec.
From Verif Require OV_Model SF_Model LV_Model NX_Model UT_Model.

(** ** shapes *)
Section Regions.
Variables (t : LV_Model.tech) (context_shapes : LV_Model.gds -> option (list LV_Model.shape)) (substrate_shape : list LV_Model.shape).
Variable sh : LV_Model.shape -> LV_Model.shape.
Lemma regions_map metals : LV_Model.layer_regions t (fun p => option_map (map sh) (context_shapes p)) (map sh substrate_shape) metals =
  option_map (in_table sh) (LV_Model.layer_regions t context_shapes substrate_shape metals).
Proof.
  unfold LV_Model.layer_regions. change (Some [("VSUBS"%string, map sh substrate_shape)]) with (option_map (in_table sh) (Some [("VSUBS"%string, substrate_shape)])).
  generalize (Some [("VSUBS"%string, substrate_shape)]). induction metals as [|m ms IH]; intros d; [reflexivity|]. cbn [fold_left]. rewrite <- IH. f_equal.
  destruct d as [d|]; [|reflexivity]. cbn [option_map LV_Model.region_step]. destruct (LV_Model.gds_pair t m) as [p|] eqn:Eg; [|reflexivity].
  destruct (dget (LV_Model.canonical_layer_name_by_gds_pair t) p) as [cn|]; [|reflexivity]. unfold LV_Model.layer_shapes. rewrite Eg.
  destruct (context_shapes p) as [s|]; [|reflexivity]. cbn [option_map]. f_equal. rewrite <- dset_table, map_app. f_equal. f_equal.
  rewrite dget_table. destruct (dget d cn); reflexivity.
Qed.
End Regions.

Section Finer.
Variable k : Z.
Hypothesis kpos : (0 < k)%Z.
Notation fp := (finer_point k).
Notation fs := (finer_spoly k).

(** ** numbers *)
Lemma mul_min a b : Z.min (k * a) (k * b) = (k * Z.min a b)%Z.
Proof. apply Z.mul_min_distr_nonneg_l. lia. Qed.
Lemma mul_max a b : Z.max (k * a) (k * b) = (k * Z.max a b)%Z.
Proof. apply Z.mul_max_distr_nonneg_l. lia. Qed.
Lemma mul_ltb a b : (k * a <? k * b)%Z = (a <? b)%Z.
Proof. destruct (a <? b)%Z eqn:E; [apply Z.ltb_lt in E; apply Z.ltb_lt; nia|]. apply Z.ltb_ge in E. apply Z.ltb_ge. nia. Qed.
Lemma mul_ltb0 a : (k * a <? 0)%Z = (a <? 0)%Z.
Proof. rewrite <- (mul_ltb a 0). f_equal. lia. Qed.
Lemma mul_eqb a b : Z.eqb (k * a) (k * b) = Z.eqb a b.
Proof. destruct (Z.eqb a b) eqn:E; [apply Z.eqb_eq in E; subst; apply Z.eqb_refl|]. apply Z.eqb_neq in E. apply Z.eqb_neq. nia. Qed.
Lemma zq_mul a b : SF_Model.zq (a * b) = (SF_Model.zq a * SF_Model.zq b)%Qc.
Proof.
  unfold SF_Model.zq. apply Qc_is_canon. rewrite inject_Z_mult. unfold Qcmult. cbn [this Q2Qc]. rewrite !Qred_correct. reflexivity.
Qed.

(** ** polygons *)
Lemma lo_finer p : SF_Model.bbox_lo (fs p) = (k * SF_Model.bbox_lo p)%Z.
Proof.
  unfold SF_Model.bbox_lo, finer_spoly. cbn [SF_Model.sp_hull]. destruct (SF_Model.sp_hull p) as [|[x y] l]; [cbn; lia|]. cbn [map finer_point fst snd].
  revert y. induction l as [|q l IH]; intros y; [reflexivity|]. cbn [map fold_left finer_point fst snd]. rewrite mul_min. apply IH.
Qed.
Lemma hi_finer p : SF_Model.bbox_hi (fs p) = (k * SF_Model.bbox_hi p)%Z.
Proof.
  unfold SF_Model.bbox_hi, finer_spoly. cbn [SF_Model.sp_hull]. destruct (SF_Model.sp_hull p) as [|[x y] l]; [cbn; lia|]. cbn [map finer_point fst snd].
  revert y. induction l as [|q l IH]; intros y; [reflexivity|]. cbn [map fold_left finer_point fst snd]. rewrite mul_max. apply IH.
Qed.
Lemma ned_finer p : SF_Model.nearest_edge_distance (fs p) = (k * SF_Model.nearest_edge_distance p)%Z.
Proof.
  unfold SF_Model.nearest_edge_distance. rewrite lo_finer, hi_finer, mul_min. cbv zeta. rewrite mul_ltb0.
  destruct (_ <? 0)%Z; [lia|reflexivity].
Qed.
Definition fe (e : (Z * Z) * (Z * Z)) : (Z * Z) * (Z * Z) := (fp (fst e), fp (snd e)).
Lemma combine_map {A B} (g : A -> B) l : forall l', combine (map g l) (map g l') = map (fun e => (g (fst e), g (snd e))) (combine l l').
Proof. induction l as [|x l IH]; intros [|y l']; try reflexivity. cbn. rewrite IH. reflexivity. Qed.
Lemma each_edge_finer p : SF_Model.each_edge (fs p) = map fe (SF_Model.each_edge p).
Proof.
  unfold SF_Model.each_edge, finer_spoly. cbn [SF_Model.sp_hull]. destruct (SF_Model.sp_hull p) as [|x l]; [reflexivity|]. 
  cbn [map]. change [fp x] with (map fp [x]). rewrite <- map_app. change (fp x :: map fp l) with (map fp (x :: l)). apply (combine_map fp).
Qed.
Lemma nearest_edge_finer p : SF_Model.nearest_edge (fs p) = option_map fe (SF_Model.nearest_edge p).
Proof.
  unfold SF_Model.nearest_edge. rewrite each_edge_finer.
  assert (G : forall l, filter (fun e => (fst (snd e) - fst (fst e) <? 0)%Z) (map fe l) = map fe (filter (fun e : (Z * Z) * (Z * Z) => (fst (snd e) - fst (fst e) <? 0)%Z) l)).
  { induction l as [|[[a b] [c d]] l IH]; [reflexivity|]. cbn [map filter fe finer_point fst snd]. rewrite IH.
    replace (k * c - k * a)%Z with (k * (c - a))%Z by lia. rewrite mul_ltb0. destruct (_ <? 0)%Z; reflexivity. }
  rewrite G, <- map_rev. destruct (rev _); reflexivity.
Qed.
Definition fd (d : option Z) : option Z := option_map (Z.mul k) d.
Lemma nearest_finer ps : SF_Model.find_nearest (map fs ps) = option_map (fun x => (fd (fst x), fs (snd x))) (SF_Model.find_nearest ps).
Proof.
  unfold SF_Model.find_nearest. destruct ps as [|p ps]; [reflexivity|]. cbn [option_map map]. f_equal.
  change (fs p :: map fs ps) with (map fs (p :: ps)).
  assert (G : forall l b, fold_left SF_Model.closer (map fs l) (fd (fst b), fs (snd b)) = (fd (fst (fold_left SF_Model.closer l b)), fs (snd (fold_left SF_Model.closer l b)))).
  { induction l as [|q l IH]; intros b; [reflexivity|]. cbn [map fold_left]. rewrite <- IH. f_equal. unfold SF_Model.closer. cbn [fst snd].
    rewrite ned_finer. destruct b as [[d|] b]; cbn [fst snd fd option_map]; [|reflexivity]. cbv zeta. rewrite mul_ltb. destruct (_ <? _)%Z; reflexivity. }
  apply (G (p :: ps) (None, p)).
Qed.

(** ** one interval *)
Variable shield_top : Z.
Definition fev (e : SF_Model.event) : SF_Model.event :=
  match e with
  | SF_Model.EvSidewall p => SF_Model.EvSidewall (fs p)
  | SF_Model.EvFringe c ps sh l => SF_Model.EvFringe c (map fs ps) (map fs sh) (option_map fs l)
  end.
Definition fl (s : SF_Model.lat) : SF_Model.lat := SF_Model.Lat (fd (SF_Model.l_dist s)) (option_map fe (SF_Model.l_edge s)) (map fev (SF_Model.l_events s)).
Lemma dist_lt_finer a b : SF_Model.dist_lt (fd a) (fd b) = SF_Model.dist_lt a b.
Proof. destruct a, b; cbn [fd option_map SF_Model.dist_lt]; [apply mul_ltb|reflexivity..]. Qed.
Lemma lateral_finer n ins pbc : forall s, fold_left (SF_Model.lateral_step n ins) (in_table fs pbc) (option_map fl s) = option_map fl (fold_left (SF_Model.lateral_step n ins) pbc s).
Proof.
  induction pbc as [|[i ps] pbc IH]; intros s; [reflexivity|]. cbn [in_table map fold_left fst snd]. rewrite <- IH. f_equal.
  destruct s as [s|]; [|reflexivity]. cbn [option_map SF_Model.lateral_step fst snd]. destruct (Nat.eqb i n || Nat.eqb ins i); [|reflexivity].
  rewrite nearest_finer. destruct (SF_Model.find_nearest ps) as [[d p]|]; [|reflexivity]. cbn [option_map fst snd]. rewrite nearest_edge_finer.
  cbn [fl SF_Model.l_dist SF_Model.l_edge SF_Model.l_events].
  destruct (SF_Model.l_dist s) as [b|].
  - change (fd (Some b)) with (Some (k * b)%Z) at 1. cbv iota. change (Some (k * b)%Z) with (fd (Some b)). rewrite dist_lt_finer.
    destruct (SF_Model.dist_lt d (Some b)).
    + destruct (SF_Model.nearest_edge p) as [ed|]; [|reflexivity]. cbn [option_map]. unfold fl. cbn. destruct (Nat.eqb i n); [reflexivity|]. rewrite map_app. reflexivity.
    + cbn [option_map]. unfold fl. cbn. destruct (Nat.eqb i n); [reflexivity|]. rewrite map_app. reflexivity.
  - cbn [fd option_map]. destruct (SF_Model.nearest_edge p) as [ed|]; [|reflexivity]. cbn [option_map]. unfold fl. cbn. destruct (Nat.eqb i n); [reflexivity|]. rewrite map_app. reflexivity.
Qed.
Lemma shields_finer n pbc i : SF_Model.layer_shields n (in_table fs pbc) i = map fs (SF_Model.layer_shields n pbc i).
Proof. unfold SF_Model.layer_shields. destruct (Nat.ltb i n); [|reflexivity]. rewrite dget_in_table. destruct (dget pbc i); reflexivity. Qed.
Lemma shield_finer n ins pbc l c : SF_Model.fringe_shield n ins (in_table fs pbc) (option_map fs l) c = map fs (SF_Model.fringe_shield n ins pbc l c).
Proof.
  unfold SF_Model.fringe_shield. rewrite map_app. f_equal; [destruct l; reflexivity|].
  destruct (Nat.ltb c ins); [|destruct (Nat.ltb ins c); [|reflexivity]]; rewrite map_flat_map; apply flat_map_ext; intros i; apply shields_finer.
Qed.
Lemma interval_finer n ins pbc : SF_Model.on_interval n ins (k * shield_top) (in_table fs pbc) = option_map (map fev) (SF_Model.on_interval n ins shield_top pbc).
Proof.
  unfold SF_Model.on_interval. change (Some (SF_Model.Lat None None [])) with (option_map fl (Some (SF_Model.Lat None None []))) at 1. rewrite lateral_finer.
  destruct (fold_left (SF_Model.lateral_step n ins) pbc (Some (SF_Model.Lat None None []))) as [s|]; [|reflexivity].
  cbn [option_map fl SF_Model.l_edge SF_Model.l_events]. f_equal. rewrite map_app. f_equal.
  rewrite map_flat_map. unfold in_table at 2. rewrite flat_map_map. apply flat_map_ext. intros [i ps].
  unfold SF_Model.fringe_step. cbn [fst snd]. destruct (Nat.eqb ins i); [reflexivity|]. destruct (Nat.ltb i n); [|reflexivity]. cbn [map fev].
  set (l := match SF_Model.l_edge s with Some e => Some (SF_Model.lateral_polygon shield_top e) | None => None end).
  replace (match option_map fe (SF_Model.l_edge s) with Some e => Some (SF_Model.lateral_polygon (k * shield_top) e) | None => None end) with (option_map fs l)
    by (unfold l; destruct (SF_Model.l_edge s) as [e|]; reflexivity).
  rewrite <- (shield_finer n ins pbc l i). reflexivity.
Qed.
Lemma edge_finer n ins nb : (forall a b pbc, In ((a, b), pbc) nb -> pbc <> [] -> (b - a <> 1)%Z) ->
  SF_Model.on_edge n ins (k * shield_top) (map (fun x => (fp (fst x), in_table fs (snd x))) nb) =
  option_map (map (fun e => (fp (fst e), fev (snd e)))) (SF_Model.on_edge n ins shield_top nb).
Proof.
  induction nb as [|[[a b] pbc] nb IH]; intros H; [reflexivity|]. assert (IH' := IH (fun a' b' p I => H a' b' p (or_intror I))). clear IH.
  cbn [map fst snd SF_Model.on_edge finer_point]. destruct pbc as [|e pbc]; [exact IH'|].
  cbn [in_table map]. 
  assert (N : (b - a <> 1)%Z) by (apply (H a b (e :: pbc)); [now left|discriminate]).
  assert (L : (k * b - k * a <=? 1)%Z = (b - a <=? 1)%Z).
  { destruct (b - a <=? 1)%Z eqn:E; [apply Z.leb_le in E; apply Z.leb_le; nia|]. apply Z.leb_gt in E. apply Z.leb_gt. nia. }
  rewrite L. destruct (b - a <=? 1)%Z; [exact IH'|].
  change ((fst e, map fs (snd e)) :: map (fun e0 : nat * list SF_Model.spoly => (fst e0, map fs (snd e0))) pbc) with (in_table fs (e :: pbc)).
  rewrite interval_finer. destruct (SF_Model.on_interval n ins shield_top (e :: pbc)) as [evs|]; [|reflexivity]. cbn [option_map].
  change (fun x : Z * Z * dict nat (list SF_Model.spoly) => ((k * fst (fst x))%Z, (k * snd (fst x))%Z, in_table fs (snd x))) with (fun x : Z * Z * dict nat (list SF_Model.spoly) => (fp (fst x), in_table fs (snd x))).
  rewrite IH'.
  destruct (SF_Model.on_edge n ins shield_top nb) as [r|]; [|reflexivity]. cbn [option_map]. rewrite map_app, !map_map. reflexivity.
Qed.

(** ** emission *)
Section Emit.
Variables (dbu dbu' : Qc) (substrate : string).
Hypothesis Hdbu : (SF_Model.zq k * dbu' = dbu)%Qc.
Variables (overlaps sideoverlaps : dict string (dict string Qc)) (substrate_caps : list string).
Variable sidewalls : dict string (Qc * Qc).
Variable cut : SF_Model.spoly -> list SF_Model.spoly -> list SF_Model.spoly.
Variables fringe_cap fringe_cap' : Z -> Z -> Z -> Qc -> Qc -> option Qc.
Hypothesis Hcut : forall p s, cut (fs p) (map fs s) = map fs (cut p s).
Hypothesis Hfringe : forall len near far oc sc, fringe_cap' (k * len) (k * near) (k * far) oc sc = fringe_cap len near far oc sc.
Variable names : list string.
Lemma um z : (SF_Model.zq (k * z) * dbu' = SF_Model.zq z * dbu)%Qc.
Proof. rewrite zq_mul, <- Hdbu. ring. Qed.

Definition fgroups (d : dict string (list SF_Model.spoly)) : dict string (list SF_Model.spoly) := in_table fs d.
Lemma group_finer inn out sh d p : SF_Model.group_step substrate cut inn out (map fs sh) (fgroups d) (fs p) = fgroups (SF_Model.group_step substrate cut inn out sh d p).
Proof.
  unfold SF_Model.group_step. cbv zeta. change (SF_Model.sp_net (fs p)) with (SF_Model.sp_net p).
  set (o := SF_Model.net_of substrate out (SF_Model.sp_net p)). destruct (eqb inn o); [reflexivity|].
  assert (G : match dget (fgroups d) o with Some l => l | None => [] end = map fs (match dget d o with Some l => l | None => [] end))
    by (unfold fgroups; rewrite dget_table; destruct (dget d o); reflexivity).
  rewrite G. unfold fgroups. destruct sh as [|s sh].
  - cbn [map]. rewrite <- dset_table, map_app. reflexivity.
  - cbn [map]. change (fs s :: map fs sh) with (map fs (s :: sh)). rewrite Hcut. destruct (cut p (s :: sh)) as [|u us]; [reflexivity|].
    cbn [map]. rewrite <- dset_table, map_app. f_equal. f_equal. cbn [map]. f_equal. rewrite !map_map. reflexivity.
Qed.
Lemma piece_finer il inn ol len oc sc o s p :
  SF_Model.emit_piece fringe_cap' il inn ol (k * len) oc sc o s (fs p) = SF_Model.emit_piece fringe_cap il inn ol len oc sc o s p.
Proof.
  destruct s as [|[|] caps]; [reflexivity|reflexivity|]. unfold SF_Model.emit_piece. cbv zeta. rewrite lo_finer, hi_finer, !mul_ltb0.
  assert (N : forall z, (if (z <? 0)%Z then 0%Z else (k * z)%Z) = (k * (if (z <? 0)%Z then 0 else z))%Z) by (intros z; destruct (z <? 0)%Z; lia).
  rewrite !N, mul_ltb, mul_eqb, Hfringe. reflexivity.
Qed.
Lemma fringe_finer il net ol iv ps sh :
  SF_Model.emit_fringe substrate overlaps sideoverlaps substrate_caps cut fringe_cap' il net ol (fp iv) (map fs ps) (map fs sh) =
  SF_Model.emit_fringe substrate overlaps sideoverlaps substrate_caps cut fringe_cap il net ol iv ps sh.
Proof.
  unfold SF_Model.emit_fringe. cbv zeta. destruct (SF_Model.fringe_specs _ _ _ _ _) as [[oc sc]|]; [|reflexivity].
  set (inn := SF_Model.net_of substrate il net).
  change (@nil (string * list SF_Model.spoly)) with (fgroups []) at 1.
  rewrite (fold_map_hom fs fgroups (SF_Model.group_step substrate cut inn ol sh)) by (intros; apply group_finer).
  set (g := fold_left (SF_Model.group_step substrate cut inn ol sh) ps []).
  replace (snd (fp iv) - fst (fp iv))%Z with (k * (snd iv - fst iv))%Z by (unfold finer_point; cbn [fst snd]; lia).
  unfold fgroups, in_table.
  pose proof (fold_map_hom (fun e : string * list SF_Model.spoly => (fst e, map fs (snd e))) (fun s : SF_Model.fr => s)
     (fun s e => fold_left (SF_Model.emit_piece fringe_cap il inn ol (snd iv - fst iv) oc sc (fst e)) (snd e) s)
     (fun s e => fold_left (SF_Model.emit_piece fringe_cap' il inn ol (k * (snd iv - fst iv)) oc sc (fst e)) (snd e) s)) as F.
  cbv beta in F. rewrite F; [reflexivity|]. intros s [o qs]. cbn [fst snd].
  apply (fold_map_hom fs (fun s : SF_Model.fr => s)). intros s' q. apply piece_finer.
Qed.
Lemma event_finer idx net iv ev :
  event_entries dbu' substrate overlaps sideoverlaps substrate_caps sidewalls cut fringe_cap' names idx net (fp iv) (fev ev) =
  event_entries dbu substrate overlaps sideoverlaps substrate_caps sidewalls cut fringe_cap names idx net iv ev.
Proof.
  destruct ev as [p|c ps sh l]; unfold event_entries; cbv zeta; cbn [fev].
  - unfold SF_Model.emit_sidewall. change (SF_Model.sp_net (fs p)) with (SF_Model.sp_net p). destruct (eqb net _); [reflexivity|].
    destruct (dget sidewalls _) as [[c off]|]; [|reflexivity]. rewrite nearest_edge_finer. destruct (SF_Model.nearest_edge p); [|reflexivity].
    cbn [option_map]. cbv zeta. rewrite lo_finer, hi_finer, mul_min, um.
    replace (snd (fp iv) - fst (fp iv))%Z with (k * (snd iv - fst iv))%Z by (unfold finer_point; cbn [fst snd]; lia). rewrite um. reflexivity.
  - rewrite fringe_finer. reflexivity.
Qed.
Lemma collect_map {A B C} (g : A -> B) (h : A -> option (list C)) (h' : B -> option (list C)) l :
  (forall x, In x l -> h' (g x) = h x) -> collect h' (map g l) = collect h l.
Proof.
  induction l as [|x l IH]; intros H; [reflexivity|]. cbn [map collect]. rewrite (H x (or_introl eq_refl)), IH; [reflexivity|].
  intros y I. apply H. now right.
Qed.
Lemma edge_entries_finer idx c : no_unit_interval c ->
  edge_entries dbu' substrate overlaps sideoverlaps substrate_caps sidewalls cut fringe_cap' (k * shield_top) names idx (finer_edge k c) =
  edge_entries dbu substrate overlaps sideoverlaps substrate_caps sidewalls cut fringe_cap shield_top names idx c.
Proof.
  intros H. unfold edge_entries, finer_edge. cbn [fst snd]. rewrite (edge_finer _ _ _ H). destruct (SF_Model.on_edge _ _ _ (snd c)) as [evs|]; [|reflexivity].
  cbn [option_map]. apply collect_map. intros e _. cbn [fst snd]. apply event_finer.
Qed.

(** ** overlaps *)
Context {pt : Type}.
Variables area area' : OV_Model.region pt -> Qc.
Hypothesis Harea : forall r, area' r = (SF_Model.zq k * SF_Model.zq k * area r)%Qc.
Lemma visit_finer bn nb bottom tn s (p : OV_Model.poly pt) :
  OV_Model.visit area' dbu' overlaps bn nb bottom tn s p = OV_Model.visit area dbu overlaps bn nb bottom tn s p.
Proof.
  unfold OV_Model.visit. destruct (OV_Model.st_done s); [reflexivity|]. destruct (eqb _ nb); [reflexivity|]. destruct (OV_Model.spec_for _ _ _) as [c|]; [|reflexivity].
  cbv zeta. rewrite Harea. 
  replace (SF_Model.zq k * SF_Model.zq k * area (OV_Model.rsub (OV_Model.rand (OV_Model.p_points p) bottom) (OV_Model.st_shield s)) * (dbu' * dbu') * c / Q2Qc 1000)%Qc
    with (area (OV_Model.rsub (OV_Model.rand (OV_Model.p_points p) bottom) (OV_Model.st_shield s)) * (dbu * dbu) * c / Q2Qc 1000)%Qc; [reflexivity|].
  rewrite <- Hdbu. unfold Qcdiv. ring.
Qed.
Lemma neighbors_finer idx (p : OV_Model.poly pt) nb :
  OV_Model.neighbors area' dbu' substrate overlaps names idx p nb = OV_Model.neighbors area dbu substrate overlaps names idx p nb.
Proof.
  unfold OV_Model.neighbors. cbv zeta. f_equal. generalize (OV_Model.St (pt := pt) OV_Model.rempty [] false). induction (seq _ _) as [|i l IH]; intros s; [reflexivity|].
  cbn [fold_left]. rewrite IH. f_equal. unfold OV_Model.visit_layer. destruct (dget nb i) as [ps|]; [|reflexivity].
  revert s. induction ps as [|q ps IH']; intros s; [reflexivity|]. cbn [fold_left]. rewrite visit_finer. apply IH'.
Qed.
End Emit.
End Finer.
