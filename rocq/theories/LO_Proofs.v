(** Proofs about added shapes. *)
From Coq Require Import String ZArith Permutation Lia.
From Verif Require Import PyBase PyLib ER_Model ER_Spec ER_Proofs E2_Model E2_Spec E2_Proofs SY_Spec SY_Proofs PV_Proofs LO_Spec.
From Verif Require OV_Model SF_Model SF_Proofs LV_Model.

Section Local.
Variable new : string -> bool.
(** reports between nets that are not new *)
Definition old_report (r : report) : bool := negb (new (fst (fst r))) && negb (new (snd (fst r))).
Notation old := (filter old_report).
Lemma old_reported l x y : new x = false -> new y = false -> reported (old l) x y = reported l x y.
Proof.
  intros X Y. unfold reported. induction l as [|[[a b] v] l IH]; [reflexivity|]. cbn [filter]. rewrite qsumf_cons, <- IH.
  destruct (old_report (a, b, v)) eqn:O; [rewrite qsumf_cons; reflexivity|].
  replace (same_nets x y a b) with false; [symmetry; apply Qcplus_0_l|]. symmetry. destruct (same_nets x y a b) eqn:S; [|reflexivity].
  apply same_nets_spec in S. unfold old_report in O. cbn [fst snd] in O. destruct S as [[-> ->]|[-> ->]]; rewrite X, Y in O; discriminate O.
Qed.
Lemma old_mentioned l x y : new x = false -> new y = false -> (mentioned (old l) x y <-> mentioned l x y).
Proof.
  intros X Y. split; intros (a & b & v & I & S); exists a, b, v; (split; [|exact S]); [apply filter_In in I; apply I|].
  apply filter_In. split; [exact I|]. apply same_nets_spec in S. unfold old_report. cbn [fst snd]. destruct S as [[-> ->]|[-> ->]]; rewrite X, Y; reflexivity.
Qed.
Lemma filter_perm {A} (b : A -> bool) l l' : Permutation l l' -> Permutation (filter b l) (filter b l').
Proof.
  induction 1 as [|x l l' _ IH|x y l|l m n _ IH1 _ IH2]; cbn [filter]; [constructor|destruct (b x); auto| |eapply Permutation_trans; eauto].
  destruct (b x), (b y); try apply Permutation_refl. apply perm_swap.
Qed.
Lemma old_has l l' capl capl' : Permutation (old l) (old l') -> sums_of l capl -> sums_of l' capl' ->
  forall x y v, new x = false -> new y = false -> (has capl x y v <-> has capl' x y v).
Proof.
  intros P S S' x y v X Y. rewrite (sums_has _ _ S), (sums_has _ _ S'), <- (old_mentioned l x y X Y), <- (old_mentioned l' x y X Y),
    <- (old_reported l x y X Y), <- (old_reported l' x y X Y).
  assert (R : reported (old l) x y = reported (old l') x y) by (unfold reported; apply qsumf_perm, P). rewrite R.
  split; intros [M E]; (split; [|exact E]); (eapply mentioned_perm; [|exact M]); [exact P|symmetry; exact P].
Qed.
Lemma old_none l : Forall (fun r => old_report r = false) l -> old l = [].
Proof. induction 1 as [|r l H _ IH]; [reflexivity|]. cbn [filter]. now rewrite H. Qed.

Context {pt : Type}.
Variables (area : OV_Model.region pt -> Qc) (dbu : Qc) (substrate : string).
Variables (overlaps sideoverlaps : dict string (dict string Qc)) (substrate_caps : list string).
Variable sidewalls : dict string (Qc * Qc).
Variable cut : SF_Model.spoly -> list SF_Model.spoly -> list SF_Model.spoly.
Variable fringe_cap : Z -> Z -> Z -> Qc -> Qc -> option Qc.
Variable shield_top : Z.
Variable names : list string.
Hypothesis aext : forall a b, (forall p, a p = b p) -> area a = area b.

(** ** overlaps *)
Definition em_report (e : OV_Model.emitted pt) : report := report_of (AddOverlap (OV_Model.em_cap e)).
Definition outs (s : OV_Model.st (pt := pt)) : list report := map em_report (OV_Model.st_out s).
Lemma layer_visit bn nb0 bottom nb s k : OV_Model.visit_layer area dbu overlaps names bn nb0 bottom nb s k =
  fold_left (OV_Model.visit area dbu overlaps bn nb0 bottom (nth k names EmptyString)) (layer_of nb k) s.
Proof. unfold OV_Model.visit_layer, layer_of. destruct (dget nb k); reflexivity. Qed.
Section Call.
Variables (bn nbot : string) (bottom bottom' : OV_Model.region pt) (nb nb' : dict nat (list (OV_Model.poly pt))).
Definition old_point (x : pt) : Prop := exists k p, In p (layer_of nb k) /\ OV_Model.p_points p x = true.
Hypothesis same_bottom : forall x, old_point x -> bottom' x = bottom x.
Definition agree (s s' : OV_Model.st (pt := pt)) : Prop :=
  (forall x, old_point x -> OV_Model.st_shield s x = OV_Model.st_shield s' x) /\ old (outs s) = old (outs s') /\ OV_Model.st_done s = false /\ OV_Model.st_done s' = false.
Lemma layer_agree tn k : OV_Model.spec_for overlaps tn bn <> None -> forall l l', grows new (apart_from nb) l l' -> incl l (layer_of nb k) -> forall s s', agree s s' ->
  agree (fold_left (OV_Model.visit area dbu overlaps bn nbot bottom tn) l s) (fold_left (OV_Model.visit area dbu overlaps bn nbot bottom' tn) l' s').
Proof.
  intros Sp. induction 1 as [|p l l' G IH|q l l' Nq Far G IH]; intros Sub s s' (A & B & C & D); [split; [|split; [|split]]; assumption| |]; cbn [fold_left].
  - apply IH; [intros z Hz; apply Sub; now right|]. unfold OV_Model.visit. rewrite C, D. destruct (eqb (OV_Model.p_net p) nbot); [split; [|split; [|split]]; assumption|].
    destruct (OV_Model.spec_for overlaps tn bn) as [c|]; [|contradiction]. cbv zeta.
    assert (R : forall x, OV_Model.rsub (OV_Model.rand (OV_Model.p_points p) bottom') (OV_Model.st_shield s') x = OV_Model.rsub (OV_Model.rand (OV_Model.p_points p) bottom) (OV_Model.st_shield s) x).
    { intros x. unfold OV_Model.rsub, OV_Model.rand. destruct (OV_Model.p_points p x) eqn:Px; [|reflexivity].
      assert (O : old_point x) by (exists k, p; split; [apply Sub; now left|exact Px]). rewrite (same_bottom x O), (A x O). reflexivity. }
    rewrite (aext _ _ R). split; [|split; [|split; reflexivity]]; cbn [OV_Model.st_shield].
    + intros x O. unfold OV_Model.rinsert. rewrite (A x O). reflexivity.
    + unfold outs in *. cbn [OV_Model.st_out]. destruct (qltb _ _); [|exact B]. rewrite !map_app, !filter_app, B. reflexivity.
  - apply IH; [exact Sub|]. unfold OV_Model.visit. rewrite D. destruct (eqb (OV_Model.p_net q) nbot); [split; [|split; [|split]]; assumption|].
    destruct (OV_Model.spec_for overlaps tn bn) as [c|]; [|contradiction]. cbv zeta.
    split; [|split; [|split; [exact C|reflexivity]]]; cbn [OV_Model.st_shield].
    + intros x O. unfold OV_Model.rinsert. rewrite <- (A x O). destruct O as (k' & p & Hp & Px). destruct (OV_Model.p_points q x) eqn:Qx; [exfalso; exact (Far k' p x Hp Px Qx)|].
      now rewrite orb_false_r.
    + unfold outs in *. cbn [OV_Model.st_out]. destruct (qltb _ _); [|exact B]. rewrite map_app, filter_app, <- B. cbn [map filter em_report OV_Model.em_cap report_of ov_key].
      unfold old_report at 3. cbn [fst snd]. rewrite Nq. cbn [negb andb]. now rewrite app_nil_r.
Qed.
End Call.
Lemma neighbors_grown idx (c c' : OV_Model.poly pt * dict nat (list (OV_Model.poly pt))) : (forall k, (idx < k < List.length names)%nat -> OV_Model.spec_for overlaps (nth k names EmptyString) (nth idx names EmptyString) <> None) ->
  grown_call new c c' -> old (rep (call_entries area dbu substrate overlaps names idx c)) = old (rep (call_entries area dbu substrate overlaps names idx c')).
Proof.
  intros Sp (En & Eb & G). unfold call_entries, rep. rewrite !map_map. unfold OV_Model.neighbors. rewrite En. cbv zeta. set (bn := nth idx names EmptyString) in *.
  set (nbot := if eqb bn substrate then substrate else OV_Model.p_net (fst c)).
  enough (W : forall ks, (forall k, In k ks -> (idx < k < List.length names)%nat) -> forall s s', agree (snd c) s s' ->
     agree (snd c) (fold_left (OV_Model.visit_layer area dbu overlaps names bn nbot (OV_Model.p_points (fst c)) (snd c)) ks s)
       (fold_left (OV_Model.visit_layer area dbu overlaps names bn nbot (OV_Model.p_points (fst c')) (snd c')) ks s')).
  { apply W; [|split; [|split; [|split]]; reflexivity]. intros k Hk. apply in_seq in Hk. lia. }
  induction ks as [|k ks IH]; intros Hk s s' H; [exact H|]. cbn [fold_left]. apply IH; [intros k' Hk'; apply Hk; now right|]. rewrite !layer_visit.
  apply (layer_agree bn nbot _ _ (snd c)) with (k := k); [|apply Sp, Hk; now left|apply G|apply incl_refl|exact H].
  intros x (k' & p & Hp & Px). exact (Eb k' p x Hp Px).
Qed.
Lemma call_new idx c : new_call new names substrate idx c -> old (rep (call_entries area dbu substrate overlaps names idx c)) = [].
Proof.
  intros N. apply old_none. unfold call_entries, rep. rewrite map_map. unfold OV_Model.neighbors. cbv zeta. set (bn := nth idx names EmptyString) in *.
  set (nbot := if eqb bn substrate then substrate else OV_Model.p_net (fst c)).
  assert (K : forall k p cap, In p (layer_of (snd c) k) -> old_report (OV_Model.p_net p, nbot, cap) = false).
  { intros k p cap I. unfold old_report. cbn [fst snd]. destruct N as [[Ns Nn]|N].
    - unfold nbot. destruct (eqb bn substrate) eqn:E; [apply eqb_eq in E; contradiction|]. rewrite Nn. apply andb_false_r.
    - rewrite (N k p I). reflexivity. }
  clear N. change (fun x : OV_Model.emitted pt => report_of (AddOverlap (OV_Model.em_cap x))) with em_report.
  enough (W : forall ks s, Forall (fun r => old_report r = false) (outs s) -> Forall (fun r => old_report r = false)
     (outs (fold_left (OV_Model.visit_layer area dbu overlaps names bn nbot (OV_Model.p_points (fst c)) (snd c)) ks s))) by (apply W; constructor).
  induction ks as [|k ks IH]; intros s H; [exact H|]. cbn [fold_left]. apply IH. rewrite layer_visit.
  assert (Sub : incl (layer_of (snd c) k) (layer_of (snd c) k)) by apply incl_refl. revert Sub s H. generalize (layer_of (snd c) k) at 1 3 as l.
  induction l as [|p l IHl]; intros Sub s H; [exact H|]. cbn [fold_left]. apply IHl; [intros z Hz; apply Sub; now right|].
  unfold OV_Model.visit. destruct (OV_Model.st_done s); [exact H|]. destruct (eqb (OV_Model.p_net p) nbot); [exact H|].
  destruct (OV_Model.spec_for _ _ _) as [cc|]; [|exact H]. cbv zeta. unfold outs in *. cbn [OV_Model.st_out]. destruct (qltb _ _); [|exact H].
  rewrite map_app. apply Forall_app. split; [exact H|]. constructor; [|constructor]. cbn. apply (K k p). apply Sub. now left.
Qed.
Lemma polygons_grown idx l l' : (forall k, (idx < k < List.length names)%nat -> OV_Model.spec_for overlaps (nth k names EmptyString) (nth idx names EmptyString) <> None) ->
  grown_polygons new names substrate idx l l' ->
  Permutation (old (rep (flat_map (call_entries area dbu substrate overlaps names idx) l))) (old (rep (flat_map (call_entries area dbu substrate overlaps names idx) l'))).
Proof.
  intros Sp (mid & extra & P & F & N). symmetry. rewrite !rep_flat.
  eapply Permutation_trans; [apply filter_perm, Permutation_flat_map, P|]. clear P. rewrite flat_map_app, filter_app.
  assert (E : forall ex, Forall (new_call new names substrate idx) ex -> old (flat_map (fun c => rep (call_entries area dbu substrate overlaps names idx c)) ex) = []).
  { induction 1 as [|c ex Hc _ IH]; [reflexivity|]. cbn [flat_map]. rewrite filter_app, IH, (call_new _ _ Hc). reflexivity. }
  rewrite (E _ N), app_nil_r. clear -F Sp aext. induction F as [|c c' l mid H F IH]; [constructor|]. cbn [flat_map]. rewrite !filter_app.
  apply Permutation_app; [rewrite (neighbors_grown _ _ _ Sp H); apply Permutation_refl|exact IH].
Qed.

(** ** edges *)
Lemma edge_fringe n inside nb evs iv c ps sh lat : SF_Model.on_edge n inside shield_top nb = Some evs -> In (iv, SF_Model.EvFringe c ps sh lat) evs ->
  exists pbc, In (iv, pbc) nb /\ In (c, ps) pbc /\ (c < n)%nat.
Proof.
  revert evs. induction nb as [|[[a b] pbc] nb IH]; intros evs E I; [injection E as <-; destruct I|]. cbn [SF_Model.on_edge] in E.
  assert (Skip : forall evs', SF_Model.on_edge n inside shield_top nb = Some evs' -> In (iv, SF_Model.EvFringe c ps sh lat) evs' ->
     exists pbc0, In (iv, pbc0) (((a, b), pbc) :: nb) /\ In (c, ps) pbc0 /\ (c < n)%nat).
  { intros evs' E' I'. destruct (IH evs' E' I') as (q & A & B). exists q. split; [right; exact A|exact B]. }
  destruct pbc as [|e pbc]; [eauto|]. destruct (_ <=? _)%Z; [eauto|].
  destruct (SF_Model.on_interval n inside shield_top (e :: pbc)) as [evs1|] eqn:Ei; [|discriminate].
  destruct (SF_Model.on_edge n inside shield_top nb) as [r|]; [|discriminate]. injection E as <-. apply in_app_or in I. destruct I as [I|I]; [|eauto].
  apply in_map_iff in I. destruct I as (ev & Ee & I). injection Ee as <- ->. exists (e :: pbc). split; [now left|].
  clear Skip IH. revert Ei I. generalize (e :: pbc). clear. intros q Ei I.
  unfold SF_Model.on_interval in Ei. destruct (fold_left (SF_Model.lateral_step n inside) q (Some (SF_Model.Lat None None []))) as [s|] eqn:Es; [|discriminate].
  injection Ei as <-. apply in_app_or in I. destruct I as [I|I].
  - exfalso. assert (W : forall l s0 s1, (forall x, In x (SF_Model.l_events s0) -> exists p, x = SF_Model.EvSidewall p) ->
       fold_left (SF_Model.lateral_step n inside) l (Some s0) = Some s1 -> forall x, In x (SF_Model.l_events s1) -> exists p, x = SF_Model.EvSidewall p).
    { induction l as [|[k qs] l IHl]; intros s0 s1 H0 E1; [injection E1 as <-; exact H0|]. cbn [fold_left] in E1.
      destruct (SF_Model.lateral_step n inside (Some s0) (k, qs)) as [s2|] eqn:E2; [|rewrite SF_Proofs.lateral_none in E1; discriminate].
      apply (IHl s2 s1); [|exact E1]. clear IHl E1. cbn [SF_Model.lateral_step fst snd] in E2. destruct (Nat.eqb k n || Nat.eqb inside k); [|injection E2 as <-; exact H0].
      destruct (SF_Model.find_nearest qs) as [[d p]|]; [|discriminate].
      destruct (match SF_Model.l_dist s0 with Some b0 => _ | None => _ end) as [[d' ed']|]; [|discriminate]. injection E2 as <-. cbn [SF_Model.l_events].
      destruct (Nat.eqb k n); [exact H0|]. intros x Hx. apply in_app_iff in Hx. destruct Hx as [Hx|[<-|[]]]; [auto|eauto]. }
    destruct (W q (SF_Model.Lat None None []) s (fun x (H : In x []) => match H with end) Es _ I) as [p Hp]. discriminate Hp.
  - apply in_flat_map in I. destruct I as ([k qs] & Ik & I). unfold SF_Model.fringe_step in I. cbn [fst snd] in I. destruct (Nat.eqb inside k); [destruct I|].
    destruct (Nat.ltb k n) eqn:Kn; [|destruct I]. destruct I as [I|[]]. injection I as <- <- _ _. split; [exact Ik|]. now apply Nat.ltb_lt.
Qed.
Lemma group_keys_of ins out shield (P : string -> Prop) ps : (forall p, In p ps -> P (SF_Model.net_of substrate out (SF_Model.sp_net p))) ->
  forall d, (forall k, In k (dkeys d) -> P k) -> forall k, In k (dkeys (fold_left (SF_Model.group_step substrate cut ins out shield) ps d)) -> P k.
Proof.
  induction ps as [|p ps IH]; intros Hp d H; [exact H|]. cbn [fold_left]. apply IH; [intros q Hq; apply Hp; now right|]. intros k. unfold SF_Model.group_step. cbv zeta.
  destruct (eqb ins (SF_Model.net_of substrate out (SF_Model.sp_net p))); [apply H|].
  assert (G : forall v : list SF_Model.spoly, In k (dkeys (dset d (SF_Model.net_of substrate out (SF_Model.sp_net p)) v)) -> P k).
  { intros v I. apply dkeys_dset_in in I. destruct I as [->|I]; [apply Hp; now left|apply H, I]. }
  destruct shield as [|s sh]; [apply G|]. destruct (cut p (s :: sh)); [apply H|apply G].
Qed.
Definition so_report (c : sideoverlap_cap) : report := report_of (AddSideOverlap c).
Lemma fringe_new il net ol iv ps shield caps :
  (forall p cap, In p ps -> old_report (SF_Model.net_of substrate il net, SF_Model.net_of substrate ol (SF_Model.sp_net p), cap) = false) ->
  SF_Model.emit_fringe substrate overlaps sideoverlaps substrate_caps cut fringe_cap il net ol iv ps shield = Some caps ->
  Forall (fun c => old_report (so_report c) = false) caps.
Proof.
  intros H. unfold SF_Model.emit_fringe. cbv zeta. destruct (SF_Model.fringe_specs _ _ _ il ol) as [[oc sc]|]; [|discriminate]. set (ins := SF_Model.net_of substrate il net) in *.
  pose proof (group_keys_of ins ol shield (fun o => forall cap, old_report (ins, o, cap) = false) ps (fun p I cap => H p cap I) [] (fun k (I : In k []) => match I with end)) as K.
  revert K. generalize (fold_left (SF_Model.group_step substrate cut ins ol shield) ps []). intros d K.
  pose (ok := fun s => match s with SF_Model.FrDone _ caps => Forall (fun c => old_report (so_report c) = false) caps | SF_Model.FrRaise => True end).
  assert (W : forall d0, incl d0 d -> forall s, ok s -> ok (fold_left (fun s e => fold_left (SF_Model.emit_piece fringe_cap il ins ol (snd iv - fst iv) oc sc (fst e)) (snd e) s) d0 s)).
  { induction d0 as [|[o qs] d0 IH]; intros Sub s Hs; [exact Hs|]. cbn [fold_left fst snd]. apply IH; [intros z Hz; apply Sub; now right|].
    assert (Ko : forall cap, old_report (ins, o, cap) = false) by (apply K; apply (in_map fst) with (x := (o, qs)); apply Sub; now left).
    clear IH Sub K H. revert s Hs. induction qs as [|q qs IHq]; intros s Hs; [exact Hs|]. cbn [fold_left]. apply IHq. unfold SF_Model.emit_piece.
    destruct s as [|ret cs]; [exact I|]. destruct ret; [exact Hs|]. cbv zeta. destruct (Z.ltb _ _); [exact I|]. destruct (Z.eqb _ _); [exact Hs|]. destruct (fringe_cap _ _ _ _ _) as [v|]; [|exact I].
    destruct (qltb _ v); [|exact Hs]. apply Forall_app. split; [exact Hs|]. constructor; [|constructor]. apply Ko. }
  specialize (W d (incl_refl d) (SF_Model.FrDone false []) (Forall_nil _)). unfold ok in W.
  destruct (fold_left _ d _) as [|ret cs]; [discriminate|]. intros E. injection E as <-. exact W.
Qed.
Lemma edge_new idx c es : (idx < List.length names)%nat -> new_edge new names substrate idx c ->
  edge_entries dbu substrate overlaps sideoverlaps substrate_caps sidewalls cut fringe_cap shield_top names idx c = Some es ->
  Forall (fun r => old_report r = false) (rep es).
Proof.
  intros Hidx N. unfold edge_entries. destruct (SF_Model.on_edge (List.length names) idx shield_top (snd c)) as [evs|] eqn:Eo; [|discriminate]. intros E.
  unfold rep. apply Forall_map. revert E. apply collect_all. intros [iv ev] r I E. cbn [fst snd] in E. unfold event_entries in E. cbv zeta in E. destruct ev as [p|child ps shield lat].
  - destruct (SF_Model.emit_sidewall dbu sidewalls (nth idx names EmptyString) (fst c) iv p) as [[s|]|] eqn:Es; [|injection E as <-; constructor|discriminate].
    injection E as <-. constructor; [|constructor]. destruct (edge_sidewall _ _ _ _ _ _ _ Eo I) as (pbc & ps & A & B & C).
    unfold SF_Model.emit_sidewall in Es. destruct (eqb (fst c) (SF_Model.sp_net p)); [discriminate|]. destruct (dget sidewalls _) as [[cc off]|]; [|discriminate].
    destruct (SF_Model.nearest_edge p); [|discriminate]. cbv zeta in Es. destruct (qeqb _ _); [discriminate|]. injection Es as <-.
    cbn [report_of sw_key]. unfold old_report. cbn [fst snd]. destruct N as [[_ N]|N]; [rewrite N; reflexivity|].
    destruct (N iv pbc idx ps p A B Hidx C) as [_ X]. rewrite X. apply andb_false_r.
  - destruct (SF_Model.emit_fringe _ _ _ _ _ _ _ _ _ _ ps shield) as [caps|] eqn:Ef; [|discriminate]. injection E as <-. apply Forall_map.
    eapply fringe_new; [|exact Ef]. intros p cap Ip. destruct (edge_fringe _ _ _ _ _ _ _ _ _ Eo I) as (pbc & A & B & C).
    unfold old_report, SF_Model.net_of. cbn [fst snd]. destruct N as [[Ns N]|N].
    + destruct (eqb (nth idx names EmptyString) substrate) eqn:Eq; [apply eqb_eq in Eq; contradiction|]. rewrite N. reflexivity.
    + destruct (N iv pbc child ps p A B C Ip) as [X Y]. destruct (eqb (nth child names EmptyString) substrate) eqn:Eq; [apply eqb_eq in Eq; contradiction|].
      rewrite Y. apply andb_false_r.
Qed.
Lemma edges_grown idx l l' es' : (idx < List.length names)%nat -> grown_edges new names substrate idx l l' ->
  collect (edge_entries dbu substrate overlaps sideoverlaps substrate_caps sidewalls cut fringe_cap shield_top names idx) l' = Some es' ->
  exists es, collect (edge_entries dbu substrate overlaps sideoverlaps substrate_caps sidewalls cut fringe_cap shield_top names idx) l = Some es /\
    Permutation (old (rep es)) (old (rep es')).
Proof.
  intros Hidx (extra & P & N) E. destruct (collect_perm _ _ _ (Permutation_sym P) _ E) as (e & E1 & Q). rewrite collect_app in E1.
  destruct (collect _ l) as [a|]; [|discriminate]. destruct (collect _ extra) as [b|] eqn:Eb; [|discriminate]. injection E1 as <-. exists a. split; [reflexivity|].
  rewrite rep_app in Q. apply (filter_perm old_report) in Q. rewrite filter_app in Q. enough (Z : old (rep b) = []) by (rewrite Z, app_nil_r in Q; exact Q).
  apply old_none. unfold rep. apply Forall_map. revert Eb. apply collect_all. intros c r Ic Er. rewrite Forall_forall in N.
  pose proof (edge_new idx c r Hidx (N c Ic) Er) as X. unfold rep in X. apply Forall_map in X. exact X.
Qed.
Lemma collect_grown {A} (h h' : A -> option (list LV_Model.entry)) l :
  (forall x es', In x l -> h' x = Some es' -> exists es, h x = Some es /\ Permutation (old (rep es)) (old (rep es'))) ->
  forall es', collect h' l = Some es' -> exists es, collect h l = Some es /\ Permutation (old (rep es)) (old (rep es')).
Proof.
  induction l as [|x l IH]; intros H es' E; cbn [collect] in *; [injection E as <-; exists []; split; [reflexivity|apply Permutation_refl]|].
  destruct (h' x) as [a'|] eqn:Ex; [|discriminate]. destruct (collect h' l) as [b'|]; [|discriminate]. injection E as <-.
  destruct (H x a' (or_introl eq_refl) Ex) as (a & Ea & Pa). destruct (IH (fun y e I => H y e (or_intror I)) b' eq_refl) as (b & Eb & Pb).
  exists (a ++ b). rewrite Ea, Eb. split; [reflexivity|]. rewrite !rep_app, !filter_app. now apply Permutation_app.
Qed.

(** ** networks *)
Lemma net_of_In n i x : net_of n i = Some x -> exists y, In y (rnet_nodes n) /\ rn_net y = x.
Proof.
  unfold net_of. destruct (find (fun y => Nat.eqb (rn_id y) i) (rev (rnet_nodes n))) as [y|] eqn:E; [|discriminate]. intros H. injection H as <-.
  apply find_some in E. destruct E as [E _]. apply in_rev in E. eauto.
Qed.
Lemma all_some_app {A} (l m : list (option A)) : ER_Spec.all_some (l ++ m) = match ER_Spec.all_some l, ER_Spec.all_some m with Some a, Some b => Some (a ++ b) | _, _ => None end.
Proof.
  induction l as [|[x|] l IH]; cbn [app ER_Spec.all_some]; [destruct (ER_Spec.all_some m); reflexivity| |reflexivity].
  rewrite IH. destruct (ER_Spec.all_some l); [|reflexivity]. destruct (ER_Spec.all_some m); reflexivity.
Qed.
Lemma networks_grown n m rr' : Forall (new_network new) m -> resistor_reports (n ++ m) = Some rr' ->
  exists rr, resistor_reports n = Some rr /\ Permutation (old rr) (old rr').
Proof.
  intros N. unfold resistor_reports. rewrite flat_map_app, all_some_app. destruct (ER_Spec.all_some (flat_map _ n)) as [rr|]; [|discriminate].
  destruct (ER_Spec.all_some (flat_map _ m)) as [b|] eqn:Eb; [|discriminate]. intros E. injection E as <-. exists rr. split; [reflexivity|].
  rewrite filter_app. enough (Z : old b = []) by (rewrite Z, app_nil_r; apply Permutation_refl). apply old_none, Forall_forall. intros r I.
  apply (all_some_In _ _ _ Eb) in I. apply in_flat_map in I. destruct I as (net & Inet & I). apply in_map_iff in I. destruct I as (e & Ee & _).
  unfold element_report in Ee. destruct (net_of net (re_a e)) as [a|] eqn:Ea; [|discriminate]. destruct (net_of net (re_b e)) as [b0|]; [|discriminate].
  injection Ee as <-. destruct (net_of_In _ _ _ Ea) as (y & Iy & <-). rewrite Forall_forall in N. unfold old_report. cbn [fst snd]. rewrite (N net Inet y Iy). reflexivity.
Qed.
End Local.
