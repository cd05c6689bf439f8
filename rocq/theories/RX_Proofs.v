(** Proofs for the resistance part of a run. *)
From Coq Require Import String ZArith Permutation Lia.
From Verif Require Import PyBase PyLib ER_Model ER_Spec ER_Proofs ER_Props LV_Model LV_Spec RQ_Model RQ_Spec RQ_Proofs RQ_Props RX_Model RX_Spec.
From Verif Require NX_Model NX_Spec NX_Props UT_Model E2_Model E2_Spec E2_Proofs LV_Props.

(** ** the resistors of a run, given the networks *)
Section Resistors.
Context {pt : Type}.
Variables (area : OV_Model.region pt -> Qc) (dbu : Qc) (substrate : string).
Variables (overlaps sideoverlaps : dict string (dict string Qc)) (substrate_caps : list string).
Variable sidewalls : dict string (Qc * Qc).
Variable cut : SF_Model.spoly -> list SF_Model.spoly -> list SF_Model.spoly.
Variable fringe_cap : Z -> Z -> Z -> Qc -> Qc -> option Qc.
Variable shield_top : Z.
Variable polygon_calls : dict string (list shape) -> nat -> list (OV_Model.poly pt * dict nat (list (OV_Model.poly pt))).
Variable edge_calls : dict string (list shape) -> nat -> list (string * list ((Z * Z) * dict nat (list SF_Model.spoly))).
Variables (t : tech) (context_shapes : gds -> option (list shape)) (substrate_shape : list shape) (metals : list string).
Notation run25 := (E2_Model.run_25d area dbu substrate overlaps sideoverlaps substrate_caps sidewalls cut fringe_cap shield_top polygon_calls edge_calls
                   t context_shapes substrate_shape metals).

Lemma resistors_of_run mode resistance top nl bb nl' : UT_Model.need_resistance mode = true ->
  run25 mode resistance top nl bb = Some nl' ->
  exists n rr pre c post c' kept caps ress resl,
    resistance = Some n /\ resistor_reports n = Some rr /\
    NX_Model.circuits nl = pre ++ c :: post /\ NX_Model.c_name c = top /\ ~ In top (map NX_Model.c_name pre) /\
    NX_Model.circuits nl' = pre ++ c' :: post /\
    NX_Model.c_devices c' = kept ++ caps ++ ress /\
    (forall d, In d kept -> In d (NX_Model.c_devices c)) /\
    (forall d, In d caps -> NX_Model.d_class d = NX_Model.CCapacitor) /\
    Forall2 (NX_Spec.represents c' NX_Model.CResistor "R") ress resl /\ E2_Spec.sums_of rr resl.
Proof.
  intros Hr E. unfold E2_Model.run_25d in E. destruct (E2_Model.extract _ _ _ _ _ _ _ _ _ _ _ _ _ _ _ _ _ _ _) as [res|] eqn:Ex; [|discriminate].
  unfold E2_Model.extract in Ex. destruct (LV_Model.extract_cell _ _ _ _ _ _ _ _ _) as [cell|] eqn:Ec; [|discriminate]. injection Ex as <-.
  assert (R : resistance = Some (r_networks cell)).
  { unfold LV_Model.extract_cell in Ec. destruct (layer_regions _ _ _ _); [|discriminate]. rewrite Hr in Ec.
    destruct (if UT_Model.need_capacitance mode then _ else _); [|discriminate]. destruct resistance; [|discriminate]. injection Ec as <-. reflexivity. }
  apply NX_Props.C14_expansion_faithful in E. destruct E as (sm & pre & c & post & c' & E1 & E2 & E3 & E4 & E5 & X & _).
  destruct (NX_Spec.x_devices X) as (kept & caps & ress & capl & resl & D1 & D2 & D3 & D4 & D5 & D6 & D7 & _).
  unfold summarize in E1. cbn [dvals map snd summarize_cells] in E1. destruct (cell_summarize cell) as [s|] eqn:Es; [|discriminate].
  assert (M : merged [s] = s) by (apply C12_merge_laws, (cell_normal _ _ Es)). rewrite M in E1. injection E1 as <-.
  destruct (proj2 (C13_resistances_sum cell) s Es) as (rr & R1 & V).
  exists (r_networks cell), rr, pre, c, post, c', kept, caps, ress, resl. repeat (split; [assumption|]). split; [|split; [|split; [exact D7|]]].
  - destruct bb; [rewrite (D2 eq_refl); auto|]. intros d Hd. now apply (D3 eq_refl).
  - intros d Hd. clear -D5 Hd. induction D5 as [|x e xs es H F IH]; [destruct Hd|]. destruct Hd as [->|Hd]; [apply H|apply IH, Hd].
  - eapply E2_Proofs.sums_perm; [symmetry; exact D6|]. apply E2_Proofs.normal_sums; [apply (cell_normal _ _ Es)|intros x y; apply (V x y)..].
Qed.

Lemma run_succeeds mode n rr top nl bb : UT_Model.need_capacitance mode = false -> layer_regions t context_shapes substrate_shape metals <> None ->
  resistor_reports n = Some rr -> In top (map NX_Model.c_name (NX_Model.circuits nl)) ->
  run25 mode (Some n) top nl bb <> None.
Proof.
  intros Hc Hl Hn Ht. unfold E2_Model.run_25d, E2_Model.extract, LV_Model.extract_cell.
  destruct (layer_regions _ _ _ _) as [rg|]; [|congruence]. rewrite Hc.
  assert (S : forall cell, resistor_reports (r_networks cell) <> None -> NX_Model.expand nl top [(top, cell)] bb <> None).
  { intros cell Hcell C. apply NX_Props.C14_expansion_faithful in C. destruct C as [C|C]; [|contradiction].
    unfold summarize in C. cbn [dvals map snd summarize_cells] in C. destruct (cell_summarize cell) eqn:Es; [discriminate|].
    apply cell_summarize_none in Es. contradiction. }
  destruct (UT_Model.need_resistance mode); apply S; cbn [r_networks]; [congruence|discriminate].
Qed.
End Resistors.

(** ** networks as resistors *)
Lemma find_rev_nodup {A} (f : A -> nat) i : forall l x, NoDup (map f l) -> In x l -> f x = i -> find (fun y => Nat.eqb (f y) i) (rev l) = Some x.
Proof.
  intros l x N I E. assert (N' : NoDup (map f (rev l))) by (rewrite map_rev; apply NoDup_rev, N). apply in_rev in I. revert N' I.
  induction (rev l) as [|y m IH]; intros N' I; [destruct I|]. cbn. inversion N' as [|? ? N1 N2]; subst. destruct I as [->|I].
  - rewrite Nat.eqb_refl. reflexivity.
  - destruct (Nat.eqb_spec (f y) (f x)) as [K|K]; [|apply IH; assumption]. exfalso. apply N1. rewrite K. apply in_map, I.
Qed.

Section Networks.
Variable norm : list point -> list point.
Variable rex : ktech -> dict nat (list (poly * option string)) -> dict nat (list point) -> dict nat (list (poly * option string)) -> list knode * list kelement.
Hypothesis proper : forall a b c d, proper_output (rex a b c d).

Definition own (e : string * netreq) : Prop :=
  (forall p, In p (nr_pins (snd e)) -> pin_net p = fst e) /\ (forall x, In x (nr_terminals (snd e)) -> tm_net x = fst e).
Lemma node_net r v net n x : own (net, v) -> node_matches r v n x -> xn_id x = kn_id n /\ xn_net x = match kn_port n with NoPort => kn_name n | _ => net end.
Proof.
  intros [Op Ot] (E & _ & _ & M). cbn [fst snd] in *. split; [exact E|]. destruct (kn_port n) as [i|i|].
  - destruct M as [(p & P & ->) _]. apply nth_error_In, filter_In in P. apply Op, P.
  - destruct M as [([y pg] & P & ->) _]. apply nth_error_In in P. unfold polygons_on in P. apply in_flat_map in P. destruct P as (y' & P & P').
    apply in_flat_map in P'. destruct P' as (rg & _ & P'). destruct (eqb _ _); [|destruct P']. apply in_map_iff in P'. destruct P' as (pg' & Y & _). injection Y as -> _.
    apply Ot, P.
  - apply M.
Qed.
Lemma message_ids r v ns xs : Forall2 (node_matches r v) ns xs -> map xn_id xs = map kn_id ns.
Proof. induction 1 as [|n x ns xs M F IH]; [reflexivity|]. cbn [map]. rewrite IH. f_equal. apply M. Qed.
Lemma node_found r e w (out : list knode * list kelement) i : own e -> Forall2 (node_matches r (snd e)) (fst out) (xw_nodes w) -> NoDup (map kn_id (fst out)) -> In i (map kn_id (fst out)) ->
  exists s, net_of (message w) i = Some s /\ net_at (fst e) (fst out) i s.
Proof.
  intros Ho F N I. apply in_map_iff in I. destruct I as (k & Ek & Ik).
  assert (X : exists x, In x (xw_nodes w) /\ node_matches r (snd e) k x).
  { clear -F Ik. induction F as [|n x ns xs M F IH]; [destruct Ik|]. destruct Ik as [->|Ik]; [exists x; split; [now left|exact M]|].
    destruct (IH Ik) as (x' & A & B). exists x'. split; [now right|exact B]. }
  destruct X as (x & Ix & M). destruct e as [net v]. destruct (node_net r v net k x Ho M) as [E1 E2]. cbn [fst snd] in *.
  exists (xn_net x). split.
  - unfold net_of, message. cbn [rnet_nodes]. 
    rewrite (find_rev_nodup rn_id i _ (RNode (xn_id x) (xn_net x))); [reflexivity| | |].
    + rewrite map_map. change (NoDup (map xn_id (xw_nodes w))). rewrite (message_ids _ _ _ _ F). exact N.
    + apply in_map_iff. exists x. split; [reflexivity|exact Ix].
    + cbn [rn_id]. congruence.
  - exists k. split; [exact Ik|]. split; [exact Ek|exact E2].
Qed.
Lemma elements_found r e w (out : list knode * list kelement) els : own e -> Forall2 (node_matches r (snd e)) (fst out) (xw_nodes w) -> NoDup (map kn_id (fst out)) ->
  (forall el, In el els -> In (ke_a el) (map kn_id (fst out)) /\ In (ke_b el) (map kn_id (fst out))) ->
  exists p, ER_Spec.all_some (map (element_report (message w)) (map (fun e => RElement (ke_a e) (ke_b e) (ke_resistance e)) els)) = Some p /\
    Forall2 (fun el rp => net_at (fst e) (fst out) (ke_a el) (fst (fst rp)) /\ net_at (fst e) (fst out) (ke_b el) (snd (fst rp)) /\ snd rp = ke_resistance el) els p.
Proof.
  intros Ho F N. induction els as [|el els IH]; intros J; [exists []; split; [reflexivity|constructor]|].
  destruct (J el (or_introl eq_refl)) as [Ja Jb]. destruct IH as (p & E & G); [intros x Hx; apply J; now right|].
  destruct (node_found r e w out _ Ho F N Ja) as (sa & Ea & Na). destruct (node_found r e w out _ Ho F N Jb) as (sb & Eb & Nb).
  exists ((sa, sb, ke_resistance el) :: p). cbn [map ER_Spec.all_some]. unfold element_report at 1. cbn [re_a re_b re_resistance].
  rewrite Ea, Eb, E. split; [reflexivity|]. constructor; [|exact G]. cbn [fst snd]. auto.
Qed.
Lemma networks_found r reqs ws : Forall own reqs -> Forall2 (network_matches norm rex r) reqs ws ->
  exists l, resistor_reports (map message ws) = Some l /\ all_parts norm rex r reqs l.
Proof.
  intros Ho F. induction F as [|e w es ws (vp & pp & Pv & Pp & X) F IH].
  - exists []. split; [reflexivity|]. exists []. split; [constructor|reflexivity].
  - inversion Ho as [|? ? Ho1 Ho2]; subst. destruct (IH Ho2) as (l & E & parts & G & ->).
    set (out := rex (klayout_tech r) (regions_by_layer norm (nr_regions (snd e))) vp pp) in *. cbv zeta in X. destruct X as (_ & Fn & El).
    destruct (proper (klayout_tech r) (regions_by_layer norm (nr_regions (snd e))) vp pp) as [N J]. fold out in N, J.
    destruct (elements_found r e w out (snd out) Ho1 Fn N J) as (p & Ep & Gp).
    exists (List.concat (p :: parts)). split.
    + unfold resistor_reports in *. cbn [map flat_map]. rewrite ER_Proofs.all_some_app.
      replace (rnet_elements (message w)) with (map (fun e0 => RElement (ke_a e0) (ke_b e0) (ke_resistance e0)) (snd out)) by (rewrite <- El; reflexivity).
      rewrite Ep, E. reflexivity.
    + exists (p :: parts). split; [|reflexivity]. constructor; [|exact G]. exists out. split; [exists vp, pp; auto|exact Gp].
Qed.
End Networks.
