(** Proofs about the signs of the parasitics. *)
From Coq Require Import String ZArith Lia.
From Verif Require Import PyBase PyLib QcLra ER_Model ER_Spec ER_Proofs E2_Model E2_Spec E2_Proofs SY_Spec SY_Proofs PV_Spec.
From Verif Require OV_Model SF_Model SF_Spec SF_Proofs SF_Props LV_Model NX_Model UT_Model PD_Side.
Local Open Scope Qc_scope.

Definition sound (r : report) : Prop := fst (fst r) <> snd (fst r) /\ 0 < snd r.
Definition sound_entry (e : LV_Model.entry) : Prop := sound (report_of (op_of e)).
Lemma rep_sound es : Forall sound_entry es -> Forall sound (rep es).
Proof.
  intros H. unfold rep. apply Forall_map. eapply Forall_impl; [|exact H]. intros [x|x|x] S; exact S.
Qed.
Lemma reported_nonneg l x y : (forall r, In r l -> 0 < snd r) -> 0 <= reported l x y.
Proof.
  unfold reported. induction l as [|[[a b] v] l IH]; intros H; [apply Qcle_refl|]. rewrite qsumf_cons.
  assert (A := IH (fun r I => H r (or_intror I))). assert (B : 0 < v) by exact (H _ (or_introl eq_refl)).
  destruct (same_nets x y a b); qclra.
Qed.
Lemma reported_pos l x y : (forall r, In r l -> 0 < snd r) -> mentioned l x y -> 0 < reported l x y.
Proof.
  unfold reported. induction l as [|[[a b] v] l IH]; intros H (a0 & b0 & v0 & I & S); [destruct I|]. rewrite qsumf_cons.
  assert (B : 0 < v) by exact (H _ (or_introl eq_refl)).
  pose proof (reported_nonneg l x y (fun r I => H r (or_intror I))) as A. unfold reported in A.
  destruct I as [E|I].
  - injection E as -> -> _. rewrite S. qclra.
  - assert (C := IH (fun r I => H r (or_intror I)) (ex_intro _ a0 (ex_intro _ b0 (ex_intro _ v0 (conj I S))))). destruct (same_nets x y a b); qclra.
Qed.
Lemma sums_positive l capl : sums_of l capl -> Forall sound l -> all_positive capl.
Proof.
  intros S F x y v H. rewrite Forall_forall in F. apply (sums_has l capl S) in H. destruct H as [M ->]. split.
  - destruct M as (a & b & w & I & E). destruct (F _ I) as [N _]. cbn in N. apply same_nets_spec in E. destruct E as [[-> ->]|[-> ->]]; congruence.
  - apply reported_pos; [|exact M]. intros r I. apply (F r I).
Qed.

Section Parts.
Context {pt : Type}.
Variables (area : OV_Model.region pt -> Qc) (dbu : Qc) (substrate : string).
Variables (overlaps sideoverlaps : dict string (dict string Qc)) (substrate_caps : list string).
Variable sidewalls : dict string (Qc * Qc).
Variable cut : SF_Model.spoly -> list SF_Model.spoly -> list SF_Model.spoly.
Variable fringe_cap : Z -> Z -> Z -> Qc -> Qc -> option Qc.
Variable shield_top : Z.
Variable names : list string.

Notation em_sound := (fun e : OV_Model.emitted pt => sound (report_of (AddOverlap (OV_Model.em_cap e)))).
Lemma visit_sound bn nb bottom tn s p : Forall em_sound (OV_Model.st_out s) -> Forall em_sound (OV_Model.st_out (OV_Model.visit area dbu overlaps bn nb bottom tn s p)).
Proof.
  intros H. unfold OV_Model.visit. destruct (OV_Model.st_done s); [exact H|]. destruct (eqb (OV_Model.p_net p) nb) eqn:E; [exact H|]. apply eqb_false in E.
  destruct (OV_Model.spec_for overlaps tn bn) as [c|]; [|exact H]. cbn [OV_Model.st_out].
  destruct (qltb 0 (area (OV_Model.rsub (OV_Model.rand (OV_Model.p_points p) bottom) (OV_Model.st_shield s)) * (dbu * dbu) * c / Q2Qc 1000)) eqn:Q; [|exact H].
  apply Forall_app. split; [exact H|]. constructor; [|constructor]. apply qltb_true in Q. split; [exact E|exact Q].
Qed.
Lemma neighbors_sound idx p nbh : Forall em_sound (OV_Model.neighbors area dbu substrate overlaps names idx p nbh).
Proof.
  unfold OV_Model.neighbors. match goal with |- context [fold_left ?f ?l ?s] => enough (G : forall l0 s0, Forall em_sound (OV_Model.st_out s0) -> Forall em_sound (OV_Model.st_out (fold_left f l0 s0))) by (apply G; constructor) end.
  induction l0 as [|k l0 IH]; intros s0 H; [exact H|]. cbn [fold_left]. apply IH. unfold OV_Model.visit_layer. destruct (dget nbh k) as [ps|]; [|exact H].
  revert s0 H. induction ps as [|q ps IHp]; intros s0 H; [exact H|]. cbn [fold_left]. apply IHp, visit_sound, H.
Qed.
Lemma overlaps_sound polygons r es : overlap_entries area dbu substrate overlaps polygons names r = Some es -> Forall sound_entry es.
Proof.
  unfold overlap_entries. intros E. injection E as <-. apply Forall_flat_map, Forall_forall. intros idx _. apply Forall_flat_map, Forall_forall. intros c _.
  apply Forall_map. exact (neighbors_sound idx (fst c) (snd c)).
Qed.

(** *** fringes *)
Lemma group_keys ins out shield ps : forall d, (forall k, In k (dkeys d) -> k <> ins) ->
  forall k, In k (dkeys (fold_left (SF_Model.group_step substrate cut ins out shield) ps d)) -> k <> ins.
Proof.
  induction ps as [|p ps IH]; intros d H; [exact H|]. cbn [fold_left]. apply IH. intros k. unfold SF_Model.group_step.
  destruct (eqb ins (SF_Model.net_of substrate out (SF_Model.sp_net p))) eqn:E; [apply H|]. apply eqb_false in E.
  assert (G : forall v : list SF_Model.spoly, In k (dkeys (dset d (SF_Model.net_of substrate out (SF_Model.sp_net p)) v)) -> k <> ins).
  { intros v I. apply dkeys_dset_in in I. destruct I as [->|I]; [congruence|apply H, I]. }
  destruct shield as [|s shield]; [apply G|]. destruct (cut p (s :: shield)); [apply H|apply G].
Qed.
Notation so_sound := (fun c => sound (report_of (AddSideOverlap c))).
Lemma piece_sound il inet ol len oc sc onet ps : onet <> inet -> forall s,
  match s with SF_Model.FrDone _ caps => Forall so_sound caps | SF_Model.FrRaise => True end ->
  match fold_left (SF_Model.emit_piece fringe_cap il inet ol len oc sc onet) ps s with SF_Model.FrDone _ caps => Forall so_sound caps | SF_Model.FrRaise => True end.
Proof.
  intros N. induction ps as [|p ps IH]; intros s H; [exact H|]. cbn [fold_left]. apply IH. unfold SF_Model.emit_piece. destruct s as [|ret caps]; [exact I|].
  destruct ret; [exact H|]. destruct (Z.ltb _ _); [exact I|]. destruct (Z.eqb _ _); [exact H|]. destruct (fringe_cap _ _ _ _ _) as [v|]; [|exact I].
  destruct (qltb (Q2Qc (1 # 10000)) v) eqn:Q; [|exact H]. apply Forall_app. split; [exact H|]. constructor; [|constructor]. apply qltb_true in Q.
  split; [cbn; congruence|]. cbn [report_of snd]. cbn. eapply Qclt_trans; [|exact Q]. apply qltb_true. vm_compute. reflexivity.
Qed.
Lemma fringe_sound il net ol iv ps shield caps :
  SF_Model.emit_fringe substrate overlaps sideoverlaps substrate_caps cut fringe_cap il net ol iv ps shield = Some caps -> Forall so_sound caps.
Proof.
  unfold SF_Model.emit_fringe. destruct (SF_Model.fringe_specs overlaps sideoverlaps substrate_caps il ol) as [[oc sc]|]; [|discriminate].
  set (ins := SF_Model.net_of substrate il net). pose proof (group_keys ins ol shield ps [] (fun k (I : In k []) => match I with end)) as K.
  revert K. generalize (fold_left (SF_Model.group_step substrate cut ins ol shield) ps []). intros d K.
  match goal with |- context [fold_left ?f d ?s] => enough (G : forall s0, match s0 with SF_Model.FrDone _ caps => Forall so_sound caps | SF_Model.FrRaise => True end ->
     match fold_left f d s0 with SF_Model.FrDone _ caps => Forall so_sound caps | SF_Model.FrRaise => True end) end.
  - specialize (G (SF_Model.FrDone false []) (Forall_nil _)). destruct (fold_left _ d _); [discriminate|]. intros E. injection E as <-. exact G.
  - revert K. induction d as [|[k l] d IH]; intros K s0 H; [exact H|]. cbn [fold_left fst snd]. apply IH; [intros k' I'; apply K; right; exact I'|].
    apply piece_sound; [apply K; left; reflexivity|exact H].
Qed.

(** *** sidewalls *)
Lemma nearest_in ps d p : SF_Model.find_nearest ps = Some (d, p) -> In p ps.
Proof.
  intros E. destruct ps as [|q ps]; [discriminate|]. destruct (SF_Proofs.find_nearest_ok (q :: ps)) as (d' & p' & E' & N); [discriminate|].
  assert (X : Some (d, p) = Some (Some d', p')) by congruence. injection X as _ ->. apply (SF_Proofs.nearest_of_min _ _ _ N).
Qed.
Lemma lateral_events n inside pbc : forall s s', (forall p, In (SF_Model.EvSidewall p) (SF_Model.l_events s) -> exists ps, In (inside, ps) pbc /\ In p ps) ->
  forall sub, incl sub pbc -> fold_left (SF_Model.lateral_step n inside) sub (Some s) = Some s' ->
  forall p, In (SF_Model.EvSidewall p) (SF_Model.l_events s') -> exists ps, In (inside, ps) pbc /\ In p ps.
Proof.
  intros s s' H sub. revert s H. induction sub as [|[k ps] sub IH]; intros s H Hs E; [injection E as <-; exact H|].
  cbn [fold_left] in E. destruct (SF_Model.lateral_step n inside (Some s) (k, ps)) as [s1|] eqn:E1; [|rewrite SF_Proofs.lateral_none in E; discriminate].
  refine (IH s1 _ (fun x I => Hs x (or_intror I)) E). clear IH E. unfold SF_Model.lateral_step in E1. cbn [fst snd] in E1.
  destruct (Nat.eqb k n || Nat.eqb inside k) eqn:Ek; [|injection E1 as <-; exact H].
  destruct (SF_Model.find_nearest ps) as [[d p]|] eqn:En; [|discriminate].
  match type of E1 with match ?m with _ => _ end = _ => destruct m as [[d' ed']|]; [|discriminate] end.
  injection E1 as <-. cbn [SF_Model.l_events]. destruct (Nat.eqb k n) eqn:Kn; [exact H|]. intros q I. apply in_app_or in I. destruct I as [I|[I|[]]]; [apply H, I|].
  injection I as <-. cbn in Ek. apply Nat.eqb_eq in Ek. subst k. exists ps. split; [apply Hs; left; reflexivity|eapply nearest_in; eauto].
Qed.
Lemma interval_sidewall n inside pbc evs p : SF_Model.on_interval n inside shield_top pbc = Some evs -> In (SF_Model.EvSidewall p) evs ->
  exists ps, In (inside, ps) pbc /\ In p ps.
Proof.
  unfold SF_Model.on_interval. destruct (fold_left (SF_Model.lateral_step n inside) pbc (Some (SF_Model.Lat None None []))) as [s|] eqn:E; [|discriminate].
  intros E' I. injection E' as <-. apply in_app_or in I. destruct I as [I|I].
  - eapply (lateral_events n inside pbc _ s); [|apply incl_refl|exact E|exact I]. intros q [].
  - apply in_flat_map in I. destruct I as (e & _ & I). unfold SF_Model.fringe_step in I.
    destruct (Nat.eqb inside (fst e)); [destruct I|]. destruct (Nat.ltb (fst e) n); [destruct I as [I|[]]; discriminate I|destruct I].
Qed.
Lemma edge_sidewall n inside nb evs iv p : SF_Model.on_edge n inside shield_top nb = Some evs -> In (iv, SF_Model.EvSidewall p) evs ->
  exists pbc ps, In (iv, pbc) nb /\ In (inside, ps) pbc /\ In p ps.
Proof.
  revert evs. induction nb as [|[[a b] pbc] nb IH]; intros evs E I; [injection E as <-; destruct I|]. cbn [SF_Model.on_edge] in E.
  assert (Skip : forall evs', SF_Model.on_edge n inside shield_top nb = Some evs' -> In (iv, SF_Model.EvSidewall p) evs' ->
     exists pbc0 ps, In (iv, pbc0) (((a, b), pbc) :: nb) /\ In (inside, ps) pbc0 /\ In p ps).
  { intros evs' E' I'. destruct (IH evs' E' I') as (q & ps & A & B). exists q, ps. split; [right; exact A|exact B]. }
  destruct pbc as [|e pbc]; [eauto|]. destruct (Z.leb _ _); [eauto|].
  destruct (SF_Model.on_interval n inside shield_top (e :: pbc)) as [evs1|] eqn:E1; [|discriminate].
  destruct (SF_Model.on_edge n inside shield_top nb) as [r|] eqn:E2; [|discriminate]. injection E as <-. apply in_app_or in I. destruct I as [I|I]; [|eauto].
  apply in_map_iff in I. destruct I as (ev & Ee & I). injection Ee as <- ->. destruct (interval_sidewall _ _ _ _ _ E1 I) as (ps & A & B).
  exists (e :: pbc), ps. split; [left; reflexivity|auto].
Qed.
Lemma edge_long n inside nb evs iv ev : SF_Model.on_edge n inside shield_top nb = Some evs -> In (iv, ev) evs -> (fst iv < snd iv)%Z.
Proof.
  revert evs. induction nb as [|[[a b] pbc] nb IH]; intros evs E I; [injection E as <-; destruct I|]. cbn [SF_Model.on_edge] in E.
  destruct pbc as [|e pbc]; [eauto|]. destruct (Z.leb_spec (b - a) 1); [eauto|].
  destruct (SF_Model.on_interval n inside shield_top (e :: pbc)) as [evs1|]; [|discriminate].
  destruct (SF_Model.on_edge n inside shield_top nb) as [r|]; [|discriminate]. injection E as <-. apply in_app_or in I. destruct I as [I|I]; [|eauto].
  apply in_map_iff in I. destruct I as (ev' & Ee & _). injection Ee as <- _. cbn. lia.
Qed.
Lemma collect_all {A B} (f : A -> option (list B)) (P : B -> Prop) l : (forall x r, In x l -> f x = Some r -> Forall P r) ->
  forall r, collect f l = Some r -> Forall P r.
Proof.
  induction l as [|x l IH]; intros H r E; cbn [collect] in E; [injection E as <-; constructor|].
  destruct (f x) as [a|] eqn:Ex; [|discriminate]. destruct (collect f l) as [b|]; [|discriminate]. injection E as <-. apply Forall_app. split.
  - exact (H x a (or_introl eq_refl) Ex).
  - apply IH; [intros y r I; apply H; right; exact I|reflexivity].
Qed.
Lemma edge_sound idx e es : 0 < dbu -> positive_coefficients sidewalls -> far_enough dbu sidewalls names idx e ->
  edge_entries dbu substrate overlaps sideoverlaps substrate_caps sidewalls cut fringe_cap shield_top names idx e = Some es -> Forall sound_entry es.
Proof.
  intros Db Pc Far. unfold edge_entries. destruct (SF_Model.on_edge (List.length names) idx shield_top (snd e)) as [evs|] eqn:Eo; [|discriminate].
  apply collect_all. intros [iv ev] r I E. cbn [fst snd] in E. unfold event_entries in E. destruct ev as [p|child ps shield lat].
  - destruct (SF_Model.emit_sidewall dbu sidewalls (nth idx names EmptyString) (fst e) iv p) as [[c|]|] eqn:Es; [|injection E as <-; constructor|discriminate].
    injection E as <-. constructor; [|constructor]. destruct (edge_sidewall _ _ _ _ _ _ Eo I) as (pbc & ps & A & B & C). pose proof (edge_long _ _ _ _ _ _ Eo I) as L.
    unfold SF_Model.emit_sidewall in Es. destruct (eqb (fst e) (SF_Model.sp_net p)) eqn:En; [discriminate|]. apply eqb_false in En.
    destruct (dget sidewalls (nth idx names EmptyString)) as [[co off]|] eqn:Ed; [|discriminate]. destruct (SF_Model.nearest_edge p) eqn:Ne; [|discriminate].
    assert (Pr : SF_Spec.proper p). { intros Hh. unfold SF_Model.nearest_edge, SF_Model.each_edge in Ne. rewrite Hh in Ne. discriminate Ne. }
    pose proof (Far iv pbc ps p (SF_Model.bbox_lo p) co off A B C (not_eq_sym En) (SF_Proofs.bbox_lo_lowest p Pr) Ed) as Po.
    rewrite (Z.min_l _ _ (SF_Proofs.bbox_le p)) in Es. destruct (qeqb (SF_Model.zq (SF_Model.bbox_lo p) * dbu + off) 0); [discriminate|].
    injection Es as <-. split; [exact En|]. cbn [op_of report_of snd sw_key sw_value].
    unfold Qcdiv. repeat apply PD_Side.qcmul_pos; try apply SF_Props.qcinv_pos; auto; try (apply qltb_true; vm_compute; reflexivity).
    + apply PD_Side.zq_pos. lia.
    + eapply Pc, Ed.
  - destruct (SF_Model.emit_fringe _ _ _ _ _ _ _ _ _ _ _ _) as [caps|] eqn:Ef; [|discriminate]. injection E as <-. apply Forall_map. exact (fringe_sound _ _ _ _ _ _ _ Ef).
Qed.
Lemma sidewalls_sound edges r es : 0 < dbu -> positive_coefficients sidewalls -> (forall idx e, In e (edges r idx) -> far_enough dbu sidewalls names idx e) ->
  sidewall_fringe_entries dbu substrate overlaps sideoverlaps substrate_caps sidewalls cut fringe_cap shield_top edges names r = Some es -> Forall sound_entry es.
Proof.
  intros Db Pc Far. apply collect_all. intros idx es1 _. apply collect_all. intros e es2 I. apply edge_sound; auto.
Qed.
End Parts.

Lemma all_some_In {A} (l : list (option A)) r x : ER_Spec.all_some l = Some r -> In x r -> In (Some x) l.
Proof.
  revert r. induction l as [|[a|] l IH]; intros r E I; cbn [ER_Spec.all_some] in E; [injection E as <-; destruct I| |discriminate].
  destruct (ER_Spec.all_some l) as [r'|]; [|discriminate]. injection E as <-. destruct I as [->|I]; [left; reflexivity|right; apply (IH r' eq_refl I)].
Qed.
Lemma resistors_positive n rr resl : resistor_reports n = Some rr -> sums_of rr resl ->
  (forall net e, In net n -> In e (rnet_elements net) -> 0 < re_resistance e) -> forall x y v, has resl x y v -> 0 < v.
Proof.
  intros E S P x y v H. apply (sums_has rr resl S) in H. destruct H as [M ->]. apply reported_pos; [|exact M]. intros r I.
  apply (all_some_In _ _ _ E) in I. apply in_flat_map in I. destruct I as (net & In1 & I). apply in_map_iff in I. destruct I as (e & Ee & I).
  unfold element_report in Ee. destruct (net_of net (re_a e)) as [a|]; [|discriminate]. destruct (net_of net (re_b e)) as [b|]; [|discriminate].
  injection Ee as <-. exact (P net e In1 I).
Qed.

(** *** energy *)
Lemma qsquare_nonneg x : 0 <= x * x.
Proof.
  destruct (Qclt_le_dec x 0) as [H|H].
  - replace (x * x) with ((- x) * (- x)) by ring. assert (N : 0 <= - x) by qclra. rewrite <- (Qcmult_0_l (- x)). apply Qcmult_le_compat_r; assumption.
  - rewrite <- (Qcmult_0_l x). apply Qcmult_le_compat_r; assumption.
Qed.
Lemma energy_nonneg l volt : (forall e, In e l -> 0 < snd e) -> 0 <= energy2 l volt.
Proof.
  unfold energy2. induction l as [|e l IH]; intros H; [apply Qcle_refl|]. rewrite qsumf_cons.
  assert (A := IH (fun x I => H x (or_intror I))). pose proof (H e (or_introl eq_refl)) as P.
  pose proof (qsquare_nonneg (volt (fst (fst e)) - volt (snd (fst e)))) as Q.
  assert (B : 0 <= snd e * ((volt (fst (fst e)) - volt (snd (fst e))) * (volt (fst (fst e)) - volt (snd (fst e))))).
  { rewrite Qcmult_comm. rewrite <- (Qcmult_0_l (snd e)). apply Qcmult_le_compat_r; [exact Q|apply Qclt_le_weak, P]. }
  qclra.
Qed.
Lemma energy_zero l volt : (forall e, In e l -> 0 < snd e) -> energy2 l volt = 0 -> forall e, In e l -> volt (fst (fst e)) = volt (snd (fst e)).
Proof.
  unfold energy2. induction l as [|e l IH]; intros H E; [intros x []|]. rewrite qsumf_cons in E.
  pose proof (energy_nonneg l volt (fun x I => H x (or_intror I))) as A. unfold energy2 in A. pose proof (H e (or_introl eq_refl)) as P.
  pose proof (qsquare_nonneg (volt (fst (fst e)) - volt (snd (fst e)))) as Q.
  assert (B : 0 <= snd e * ((volt (fst (fst e)) - volt (snd (fst e))) * (volt (fst (fst e)) - volt (snd (fst e))))).
  { rewrite Qcmult_comm. rewrite <- (Qcmult_0_l (snd e)). apply Qcmult_le_compat_r; [exact Q|apply Qclt_le_weak, P]. }
  intros x [<-|I].
  - assert (Z : snd e * ((volt (fst (fst e)) - volt (snd (fst e))) * (volt (fst (fst e)) - volt (snd (fst e)))) = 0) by (apply Qcle_antisym; qclra).
    destruct (Qcmult_integral _ _ Z) as [Z1|Z1]; [rewrite Z1 in P; discriminate P|].
    assert (Z2 : volt (fst (fst e)) - volt (snd (fst e)) = 0) by (destruct (Qcmult_integral _ _ Z1); assumption). 
    replace (volt (fst (fst e))) with (volt (fst (fst e)) - volt (snd (fst e)) + volt (snd (fst e))) by ring. rewrite Z2. ring.
  - apply (IH (fun y J => H y (or_intror J))); [apply Qcle_antisym; qclra|exact I].
Qed.
