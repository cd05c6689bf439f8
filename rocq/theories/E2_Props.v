(** C86: the 2.5D netlist as a whole. *)
From Coq Require Import String ZArith Permutation Sorted Lia.
From Verif Require Import PyBase PyLib QcLra ER_Model ER_Spec ER_Proofs ER_Props E2_Model E2_Spec E2_Proofs.
From Verif Require OV_Model OV_Spec OV_Props SF_Model SF_Spec SF_Proofs SF_Props LV_Model LV_Spec LV_Props NX_Model NX_Spec NX_Props UT_Model PD_Model PD_Spec PD_Props.
Local Open Scope Qc_scope.

Section C86.
Context {pt : Type}.
Variables (area : OV_Model.region pt -> Qc) (dbu : Qc) (substrate : string).
Variables (overlaps sideoverlaps : dict string (dict string Qc)) (substrate_caps : list string).
Variable sidewalls : dict string (Qc * Qc).
Variable cut : SF_Model.spoly -> list SF_Model.spoly -> list SF_Model.spoly.
Variable fringe_cap : Z -> Z -> Z -> Qc -> Qc -> option Qc.
Variable shield_top : Z.
Variable polygon_calls : dict string (list LV_Model.shape) -> nat -> list (OV_Model.poly pt * dict nat (list (OV_Model.poly pt))).
Variable edge_calls : dict string (list LV_Model.shape) -> nat -> list (string * list ((Z * Z) * dict nat (list SF_Model.spoly))).
Variables (t : LV_Model.tech) (context_shapes : LV_Model.gds -> option (list LV_Model.shape)) (substrate_shape : list LV_Model.shape) (metals : list string).
Notation run := (run_25d area dbu substrate overlaps sideoverlaps substrate_caps sidewalls cut fringe_cap shield_top polygon_calls edge_calls
                   t context_shapes substrate_shape metals).

(** If the tables have what the layout needs, the run ends with a netlist, and its new
    capacitors are, for each pair of nets with any contribution, one capacitor with the sum
    of the contributions of all polygons and all edge intervals.  Other devices are kept
    (capacitors of the layout only with --blackbox); without resistance extraction there is
    nothing else. *)
Theorem C86_capacitors : forall mode resistance top nl bb r,
  OV_Spec.measure area -> UT_Model.need_capacitance mode = true ->
  LV_Model.layer_regions t context_shapes substrate_shape metals = Some r ->
  all_specified dbu substrate overlaps sideoverlaps substrate_caps sidewalls cut fringe_cap shield_top (dkeys r) (polygon_calls r) (edge_calls r) ->
  In top (map NX_Model.c_name (NX_Model.circuits nl)) ->
  (UT_Model.need_resistance mode = true -> exists n rr, resistance = Some n /\ resistor_reports n = Some rr) ->
  exists nl' reports pre c post c' kept caps ress capl,
    run mode resistance top nl bb = Some nl' /\
    contributions area dbu substrate overlaps sideoverlaps substrate_caps sidewalls cut fringe_cap shield_top (dkeys r)
      (polygon_calls r) (edge_calls r) reports /\
    NX_Model.circuits nl = (pre ++ c :: post)%list /\ NX_Model.c_name c = top /\ ~ In top (map NX_Model.c_name pre) /\
    NX_Model.circuits nl' = (pre ++ c' :: post)%list /\
    NX_Model.c_devices c' = (kept ++ caps ++ ress)%list /\
    (bb = true -> kept = NX_Model.c_devices c) /\
    (bb = false -> forall d, In d kept <-> In d (NX_Model.c_devices c) /\ ~ NX_Spec.is_cap_device d) /\
    Forall2 (NX_Spec.represents c' NX_Model.CCapacitor "C") caps capl /\ sums_of reports capl /\
    (UT_Model.need_resistance mode = false -> ress = []).
Proof.
  intros mode resistance top nl bb r Hm Hc Hr Hs Ht Hres.
  destruct (entries_ok area dbu substrate overlaps sideoverlaps substrate_caps sidewalls cut fringe_cap shield_top polygon_calls edge_calls r Hm Hs)
    as (a & b & Ea & Eb & HC).
  set (nets := if UT_Model.need_resistance mode then match resistance with Some n => n | None => [] end else []).
  assert (Ex : extract area dbu substrate overlaps sideoverlaps substrate_caps sidewalls cut fringe_cap shield_top polygon_calls edge_calls
                 t context_shapes substrate_shape metals mode resistance top
               = Some [(top, with_networks (add_caps (map op_of (a ++ b))) nets)]).
  { unfold extract, LV_Model.extract_cell. rewrite Hr, Hc. cbv beta iota zeta. rewrite Ea, Eb. cbv beta iota zeta.
    rewrite <- fold_left_app, add_entries. fold (add_caps (map op_of (a ++ b))). unfold nets.
    destruct (UT_Model.need_resistance mode).
    - destruct (Hres eq_refl) as (n & rr & -> & _). reflexivity.
    - f_equal. f_equal. f_equal. unfold with_networks. pose proof (add_caps_r (map op_of (a ++ b)) new_cell) as R. cbn in R.
      change (fold_left add_step (map op_of (a ++ b)) new_cell) with (add_caps (map op_of (a ++ b))) in R. rewrite <- R.
      destruct (add_caps (map op_of (a ++ b))). reflexivity. }
  assert (S : exists sm, cell_summarize (with_networks (add_caps (map op_of (a ++ b))) nets) = Some sm).
  { destruct (cell_summarize (with_networks (add_caps (map op_of (a ++ b))) nets)) as [sm|] eqn:E; [eauto|exfalso].
    apply cell_summarize_none in E. cbn [with_networks r_networks] in E. unfold nets in E.
    destruct (UT_Model.need_resistance mode); [|discriminate E]. destruct (Hres eq_refl) as (n & rr & -> & K). congruence. }
  destruct S as (sm & Es). pose proof (cell_normal _ _ Es) as Nsm.
  assert (Esum : summarize [(top, with_networks (add_caps (map op_of (a ++ b))) nets)] = Some sm).
  { unfold summarize. cbn [dvals map snd summarize_cells]. rewrite Es. f_equal. now apply C12_merge_laws. }
  destruct (C10_summary_conserves _ _ _ Es) as (V1 & V2 & _).
  destruct (NX_Model.expand nl top [(top, with_networks (add_caps (map op_of (a ++ b))) nets)] bb) as [nl'|] eqn:En.
  2: { apply NX_Props.C14_expansion_faithful in En. destruct En as [En|En]; [congruence|contradiction]. }
  pose proof En as En'. apply NX_Props.C14_expansion_faithful in En'.
  destruct En' as (sm' & pre & c & post & c' & E1 & E2 & E3 & E4 & E5 & X & _). rewrite Esum in E1. injection E1 as <-.
  destruct (NX_Spec.x_devices X) as (kept & caps & ress & capl & resl & D1 & D2 & D3 & D4 & D5 & D6 & D7 & _).
  exists nl', (rep (a ++ b)), pre, c, post, c', kept, caps, ress, capl.
  split; [unfold run_25d; rewrite Ex; exact En|]. split; [exact HC|]. repeat (split; [assumption|]).
  assert (ER : map report_of (map op_of (a ++ b)) = rep (a ++ b)).
  { unfold rep. rewrite map_map. apply map_ext. intros [x|x|x]; reflexivity. }
  rewrite ER in V1, V2. split.
  - eapply sums_perm; [symmetry; exact D4|]. apply normal_sums; [apply Nsm|exact V1|exact V2].
  - intros Hn. unfold nets in Es. rewrite Hn in Es.
    assert (R0 : resl = []).
    { destruct (cell_resistances _ Es) as (rr & R & N & V). cbn in R. injection R as <-.
      destruct (resistances sm) as [|[[x y] v] l] eqn:El; [apply Permutation_nil; symmetry; exact D6|exfalso].
      specialize (V x y). unfold pair_value in V. cbn [dget] in V.
      destruct (eq_dec (x, y) (x, y)) as [_|C]; [cbn in V; discriminate V|now apply C]. }
    rewrite R0 in D7. inversion D7. reflexivity.
Qed.

(** In mode R nothing is added to the capacitors, whatever the layout. *)
Theorem C86_no_capacitors_in_mode_R : forall resistance top nl bb nl',
  run UT_Model.R resistance top nl bb = Some nl' ->
  exists pre c post c' kept ress, NX_Model.circuits nl = (pre ++ c :: post)%list /\ NX_Model.circuits nl' = (pre ++ c' :: post)%list /\
    NX_Model.c_devices c' = (kept ++ ress)%list /\ incl kept (NX_Model.c_devices c) /\
    Forall (fun d => NX_Model.d_class d = NX_Model.CResistor) ress.
Proof.
  intros resistance top nl bb nl' E. unfold run_25d in E.
  destruct (extract _ _ _ _ _ _ _ _ _ _ _ _ _ _ _ _ _ _ _) as [res|] eqn:Ex; [|discriminate]. unfold extract in Ex.
  destruct (LV_Model.extract_cell _ _ _ _ _ _ _ _ _) as [cell|] eqn:Ec; [|discriminate]. injection Ex as <-.
  apply LV_Props.C56_no_capacitance in Ec. destruct Ec as (C1 & C2 & C3 & _).
  apply NX_Props.C14_expansion_faithful in E. destruct E as (sm & pre & c & post & c' & E1 & E2 & E3 & E4 & E5 & X & _).
  destruct (NX_Spec.x_devices X) as (kept & caps & ress & capl & resl & D1 & D2 & D3 & D4 & D5 & D6 & D7 & _).
  exists pre, c, post, c', kept, ress. split; [exact E2|]. split; [exact E5|].
  unfold summarize in E1. cbn [dvals map snd summarize_cells] in E1. destruct (cell_summarize cell) as [s|] eqn:Es; [|discriminate].
  injection E1 as <-. destruct (cell_normal _ _ Es) as [N _].
  assert (Z : capacitances s = []).
  { destruct (cell_summary_caps _ Es) as [_ H]. 
    destruct (capacitances s) as [|[[x y] v] l] eqn:El; [reflexivity|exfalso].
    destruct (H (fun _ => true)) as [_ K]; [intros p q; reflexivity|].
    unfold cell_entries in K. rewrite C1, C2, C3 in K. cbn in K. discriminate K. }
  assert (Z' : capacitances (merged [s]) = []) by (cbn [merged capacitances map]; rewrite Z; reflexivity).
  rewrite Z' in D4. symmetry in D4. apply Permutation_nil in D4. subst capl. inversion D5; subst.
  split; [rewrite D1; reflexivity|]. split.
  - destruct bb; [rewrite (D2 eq_refl); apply incl_refl|]. intros d Hd. now apply (D3 eq_refl).
  - clear -D7. induction D7 as [|d e ds es H F IH]; constructor; [apply H|exact IH].
Qed.
End C86.

(** The tables of the shipped PDKs have what any layout needs (devices being black boxes), so
    only the conditions on the layout itself remain. *)
Lemma spec_for_specified specs top bot c : OV_Model.spec_for specs top bot = Some c -> OV_Spec.specified specs top bot c.
Proof.
  unfold OV_Model.spec_for, OV_Spec.specified. destruct (dget specs top) as [[|e l]|]; [discriminate| |discriminate].
  intros E. eauto.
Qed.
Theorem C86_shipped_tables : forall (pt : Type) (T : PD_Model.technology) db substrate_shape dbu cut fringe_cap shield_top
    (polygons : nat -> list (OV_Model.poly pt * dict nat (list (OV_Model.poly pt)))) edges,
  PD_Spec.shipped T -> LV_Spec.db_wf db ->
  exists r so, LV_Model.layer_regions (PD_Model.tech_of T) (LV_Model.shapes_of_layer (PD_Model.tech_of T) true db) substrate_shape (PD_Model.metals_of T) = Some r /\
    PD_Model.sideoverlaps_of T = Some so /\
    (all_sane dbu "VSUBS" (PD_Model.sidewalls_of T) cut fringe_cap shield_top (dkeys r) edges ->
     all_specified dbu "VSUBS" (PD_Model.overlaps_of T) so (PD_Model.substrates_of T) (PD_Model.sidewalls_of T) cut fringe_cap shield_top
       (dkeys r) polygons edges).
Proof.
  intros pt T db sub dbu cut fringe_cap shield_top polygons edges HT Hdb.
  destruct (PD_Props.C72_tables T db sub HT Hdb) as (r & so & Hr & Hso & Hnd & Hov & Hsw & Hfr).
  exists r, so. split; [exact Hr|]. split; [exact Hso|]. intros Hs idx Hidx. clear HT Hr Hso.
  assert (K : forall i, (i < List.length (dkeys r))%nat -> nth_error (dkeys r) i = Some (nth i (dkeys r) EmptyString)).
  { intros i Hi. apply nth_error_nth'. exact Hi. }
  assert (KI : forall i, (i < List.length (dkeys r))%nat -> In (nth i (dkeys r) EmptyString) (dkeys r)).
  { intros i Hi. apply nth_In. exact Hi. }
  split.
  - apply Forall_forall. intros c _ k p Hk. unfold OV_Spec.candidates in Hk. apply filter_In in Hk. destruct Hk as [Hk _].
    apply in_flat_map in Hk. destruct Hk as (k' & Hseq & Hk). apply in_seq in Hseq.
    destruct (dget (snd c) k') as [ps|]; [|destruct Hk]. apply in_map_iff in Hk. destruct Hk as (p' & Ek & _). injection Ek as <- _.
    assert (Hlt : (idx < k')%nat) by lia. assert (Hk' : (k' < List.length (dkeys r))%nat) by lia.
    destruct (Hov idx k' _ _ Hlt (K idx Hidx) (K k' Hk')) as (v & Ev & _). exists v. apply spec_for_specified. exact Ev.
  - specialize (Hs idx Hidx). apply Forall_forall. intros c Hc. rewrite Forall_forall in Hs. specialize (Hs c Hc).
    apply Forall_forall. intros x Hx. rewrite Forall_forall in Hs. specialize (Hs x Hx).
    destruct Hs as (S1 & S2 & S3 & S4 & S5). split; [exact S1|]. split; [exact S3|]. split.
    + intros ps p y Eps Hp Hn Hy. destruct (Hsw _ (KI idx Hidx) S2) as (cc & off & Ec & _). exists cc, off. split; [exact Ec|].
      exact (S4 ps p y cc off Eps Hp Hn Hy Ec).
    + intros k ps Hk Hne Eps.
      assert (Hnames : nth idx (dkeys r) EmptyString <> nth k (dkeys r) EmptyString).
      { intros E. apply Hne. symmetry. apply (proj1 (NoDup_nth (dkeys r) EmptyString) Hnd idx k Hidx Hk E). }
      destruct (Hfr _ _ (KI idx Hidx) (KI k Hk) S2 Hnames) as (oc & sc & Ef & P1 & P2). exists oc, sc.
      split; [apply SF_Props.fringe_specs_found; exact Ef|].
      intros lateral shield e. exact (S5 k ps oc sc Hk Hne Eps P1 P2 lateral shield e).
Qed.
Print Assumptions C86_shipped_tables.
Print Assumptions C86_capacitors.
Print Assumptions C86_no_capacitors_in_mode_R.

(** ** A concrete run: substrate, poly and met1; A on poly, B and C on met1. *)
Definition x_overlaps : dict string (dict string Qc) :=
  [("met1", [("poly", Q2Qc 500); ("VSUBS", Q2Qc 20)]); ("poly", [("VSUBS", Q2Qc 100)])]%string.
Definition x_side : dict string (dict string Qc) := [("met1", [("poly", Q2Qc 30); ("VSUBS", Q2Qc 5)])]%string.
Definition x_sidewalls : dict string (Qc * Qc) := [("met1"%string, (Q2Qc 40, Q2Qc (1 # 4)))].
Definition x_cut (p : SF_Model.spoly) (shield : list SF_Model.spoly) : list SF_Model.spoly := [p].
Definition x_polygons (r : dict string (list LV_Model.shape)) (idx : nat) : list (OV_Model.poly nat * dict nat (list (OV_Model.poly nat))) :=
  match idx with
  | 1%nat => [(OV_Model.Poly "A" (OV_Props.upto 8), [(2%nat, [OV_Model.Poly "B" (OV_Props.upto 4)])])]
  | _ => []
  end%string.
Definition x_pbc : dict nat (list SF_Model.spoly) :=
  [(1%nat, [SF_Props.box "A" 0 10 100 50]); (2%nat, [SF_Props.box "C" 0 20 100 60])].
Definition x_edges (r : dict string (list LV_Model.shape)) (idx : nat) : list (string * list ((Z * Z) * dict nat (list SF_Model.spoly))) :=
  match idx with
  | 2%nat => [("B", [((0, 100)%Z, x_pbc); ((100, 101)%Z, x_pbc); ((101, 300)%Z, [])])]
  | _ => []
  end%string.
Definition x_nl : NX_Model.netlist := NX_Model.Netlist [NX_Model.Circuit "top" [NX_Model.KNet 1 "A"; NX_Model.KNet 2 "B"; NX_Model.KNet 3 "C"] []]%string [].
Definition x_shapes := LV_Model.shapes_of_layer LV_Props.ex_tech true LV_Props.ex_db.
Notation x_run edges mode := (run_25d OV_Props.ov_area 1 "VSUBS" x_overlaps x_side ["met1"; "poly"]%string x_sidewalls x_cut SF_Props.flat_fringe 3000
  x_polygons edges LV_Props.ex_tech x_shapes [] ["poly_con"; "met1_con"]%string mode None "top"%string x_nl true).
Definition x_regions : option (dict string (list LV_Model.shape)) :=
  LV_Model.layer_regions LV_Props.ex_tech x_shapes [] ["poly_con"; "met1_con"]%string.
Lemma x_keys : exists r, x_regions = Some r /\ dkeys r = ["VSUBS"; "poly"; "met1"]%string.
Proof. eexists. split; vm_compute; reflexivity. Qed.

(** the hypotheses of [C86_capacitors] hold for it; the capacitors are A-B with 2 + 4000 (overlap
    and fringe) and B-C with half of 100 * 40 / (20 + 1/4) / 1000 *)
Definition shown (nl : NX_Model.netlist) : list (string * list (string * nat) * bool) :=
  match NX_Model.circuits nl with
  | [c] => map (fun dv => (NX_Model.d_name (fst dv), NX_Model.d_terms (fst dv),
                  match NX_Model.d_params (fst dv) with [(_, v)] => qeqb v (snd dv) | _ => false end))
             (combine (NX_Model.c_devices c) [Q2Qc 4002; Q2Qc (8 # 81)])
  | _ => []
  end.
Example C86_nontrivial : exists r nl', x_regions = Some r /\
  all_specified 1 "VSUBS" x_overlaps x_side ["met1"; "poly"]%string x_sidewalls x_cut SF_Props.flat_fringe 3000 (dkeys r) (x_polygons r) (x_edges r) /\
  x_run x_edges UT_Model.CC = Some nl' /\
  shown nl' = [("ext_1", [("A", 1); ("B", 2)], true); ("ext_2", [("A", 2); ("B", 3)], true)]%string%nat /\
  In "top"%string (map NX_Model.c_name (NX_Model.circuits x_nl)) /\ OV_Spec.measure OV_Props.ov_area.
Proof.
  destruct x_keys as (r & Er & Ek). exists r.
  assert (G : option_map shown (x_run x_edges UT_Model.CC) = Some [("ext_1", [("A", 1); ("B", 2)], true); ("ext_2", [("A", 2); ("B", 3)], true)]%string%nat)
    by (vm_compute; reflexivity).
  destruct (x_run x_edges UT_Model.CC) as [nl'|]; [|discriminate G]. exists nl'. injection G as G.
  split; [exact Er|]. rewrite Ek. split; [|split; [reflexivity|]; split; [exact G|]; split; [left; reflexivity|apply OV_Props.count_measure]].
  intros idx Hi. cbn in Hi. destruct idx as [|[|[|idx]]]; [| | |lia].
  - split; constructor.
  - split; [|constructor]. constructor; [|constructor]. intros k p Hk. cbn in Hk. destruct Hk as [E|[]]. injection E as <- _.
    exists (Q2Qc 500), [("poly", Q2Qc 500); ("VSUBS", Q2Qc 20)]%string. split; reflexivity.
  - split; [constructor|]. constructor; [|constructor]. cbn [fst snd filter counts negb andb]. constructor; [|constructor].
    cbn [fst snd]. split; [|split; [|split]].
    + split; [unfold dwf; cbn; repeat constructor; cbn; lia|]. intros k ps H. apply dget_In in H. cbn in H.
      repeat (destruct H as [H|H]; [injection H as <- <-; repeat constructor; discriminate|]). destruct H.
    + intros k ps H [->| ->]; cbn in H; [|discriminate H]. injection H as <-. split; [discriminate|]. constructor; [discriminate|constructor].
    + intros ps p y H Hp _ Hy. cbn in H. injection H as <-. destruct Hp as [<-|[]]. exists (Q2Qc 40), (Q2Qc (1 # 4)).
      split; [reflexivity|]. replace y with 20%Z; [qcneq|].
      apply (SF_Proofs.lowest_unique (SF_Props.box "C" 0 20 100 60)); [|exact Hy].
      split; [exists 0%Z; now left|]. intros q [<-|[<-|[<-|[<-|[]]]]]; cbn; lia.
    + intros c ps Hc Hne H. destruct c as [|[|[|c]]]; cbn in H; try discriminate H; [|now destruct Hne]. injection H as <-.
      exists (Q2Qc 500), (Q2Qc 30). split.
      * split; [|split].
        -- exists [("poly", Q2Qc 500); ("VSUBS", Q2Qc 20)]%string. split; [reflexivity|left; reflexivity].
        -- left. reflexivity.
        -- exists [("poly", Q2Qc 30); ("VSUBS", Q2Qc 5)]%string. split; reflexivity.
      * intros lateral shield e _ _ He.
        assert (E : e = ("A"%string, [(0, 10); (0, 50); (100, 50); (100, 10)]%Z)).
        { unfold SF_Spec.pieces in He. cbn [flat_map] in He. rewrite app_nil_r in He.
          change (eqb (edge_net "VSUBS" ["VSUBS"; "poly"; "met1"]%string 2 "B") (SF_Spec.outside_net "VSUBS" (nth 1 ["VSUBS"; "poly"; "met1"]%string EmptyString) (SF_Props.box "A" 0 10 100 50))) with false in He.
          cbv beta iota in He. destruct shield; cbn in He; destruct He as [<-|[]]; reflexivity. }
        subst e. split; [cbn; lia|discriminate].
Qed.

(** * The unit *)
(** The tables give attofarads per square micrometer; 10^18 attofarads are a farad.  In the
    netlist the capacitance of a device is a number of farads, but the engine writes the number
    of femtofarads: 4 square micrometers at 500 aF each, 2*10^-15 F, are written as C = 2. *)
Definition atto : Qc := Q2Qc 1000000000000000000.
Theorem C86_farads_refuted : exists nl' c d v,
  x_run (fun _ _ => []) UT_Model.CC = Some nl' /\ NX_Model.circuits nl' = [c] /\ NX_Model.c_devices c = [d] /\
  NX_Model.d_params d = [("C"%string, v)] /\
  let farads := OV_Props.ov_area (fun p => OV_Props.upto 8 p && OV_Props.upto 4 p) * (1 * 1) * Q2Qc 500 / atto in
  v <> farads /\ v = Q2Qc 1000000000000000 * farads.
Proof.
  destruct (x_run (fun _ _ => []) UT_Model.CC) as [nl'|] eqn:E.
  2: { exfalso. assert (G : match x_run (fun _ _ => []) UT_Model.CC with Some _ => true | None => false end = true) by (vm_compute; reflexivity).
       rewrite E in G. discriminate G. }
  assert (G : match x_run (fun _ _ => []) UT_Model.CC with
              | Some nl => match NX_Model.circuits nl with
                           | [c] => match NX_Model.c_devices c with
                                    | [d] => match NX_Model.d_params d with [(n, v)] => eqb n "C"%string && qeqb v (Q2Qc 2) | _ => false end
                                    | _ => false
                                    end
                           | _ => false
                           end
              | None => false
              end = true) by (vm_compute; reflexivity).
  rewrite E in G. clear E. destruct (NX_Model.circuits nl') as [|c [|? ?]] eqn:Ec; try discriminate G.
  destruct (NX_Model.c_devices c) as [|d [|? ?]] eqn:Ed; try discriminate G.
  destruct (NX_Model.d_params d) as [|[n v] [|? ?]] eqn:Ep; try discriminate G.
  apply andb_prop in G. destruct G as [G1 G2]. apply eqb_eq in G1. apply qeqb_true in G2. subst n v.
  exists nl', c, d, (Q2Qc 2). split; [reflexivity|]. repeat (split; [assumption|]). cbv zeta.
  assert (F : OV_Props.ov_area (fun p => OV_Props.upto 8 p && OV_Props.upto 4 p) = Q2Qc 4) by (apply qeqb_true; vm_compute; reflexivity).
  rewrite F. split; [intros C; apply (proj2 (qeqb_true _ _)) in C; vm_compute in C; discriminate C|apply qeqb_true; vm_compute; reflexivity].
Qed.
Print Assumptions C86_farads_refuted.
