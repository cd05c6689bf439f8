(** C108: what does not change the 2.5D netlist. *)
From Coq Require Import Ascii String ZArith Permutation Lia.
From Verif Require Import PyBase PyLib QcLra ER_Model ER_Spec ER_Proofs E2_Model E2_Spec E2_Proofs SY_Spec SY_Proofs.
From Verif Require OV_Model OV_Spec OV_Props SF_Model SF_Proofs SF_Props LV_Model LV_Props NX_Model NX_Spec NX_Proofs NX_Props UT_Model E2_Props.

Section C108.
Context {pt : Type}.
Variables (area : OV_Model.region pt -> Qc) (dbu : Qc) (substrate : string).
Variables (overlaps sideoverlaps : dict string (dict string Qc)) (substrate_caps : list string).
Variable sidewalls : dict string (Qc * Qc).
Variable cut : SF_Model.spoly -> list SF_Model.spoly -> list SF_Model.spoly.
Variable fringe_cap : Z -> Z -> Z -> Qc -> Qc -> option Qc.
Variable shield_top : Z.
Variables (t : LV_Model.tech) (metals : list string).
Notation polygon_caller := (dict string (list LV_Model.shape) -> nat -> list (OV_Model.poly pt * dict nat (list (OV_Model.poly pt)))).
Notation edge_caller := (dict string (list LV_Model.shape) -> nat -> list (string * list ((Z * Z) * dict nat (list SF_Model.spoly)))).
Notation run polygons edges shapes subshape := (run_25d area dbu substrate overlaps sideoverlaps substrate_caps sidewalls cut fringe_cap shield_top
  polygons edges t shapes subshape metals).

(** Nets with other names: if every net gets another name, in the shapes, in what KLayout finds
    near each polygon and edge, and in the resistor networks, the parasitics have the same
    values between the nets of the new names. *)
Theorem C108_renamed : forall f mode shapes subshape (polygons polygons' : polygon_caller) (edges edges' : edge_caller) resistance top nl nl2 bb,
  good_names f substrate ->
  (forall p s, cut (named_spoly f p) (map (named_spoly f) s) = map (named_spoly f) (cut p s)) ->
  (forall r, LV_Model.layer_regions t shapes subshape metals = Some r -> forall idx,
     polygons' (in_table (named_shape f) r) idx = map (named_call f) (polygons r idx) /\
     edges' (in_table (named_shape f) r) idx = map (named_edge f) (edges r idx)) ->
  map NX_Model.c_name (NX_Model.circuits nl2) = map NX_Model.c_name (NX_Model.circuits nl) ->
  match run polygons edges shapes subshape mode resistance top nl bb,
        run polygons' edges' (fun p => option_map (map (named_shape f)) (shapes p)) (map (named_shape f) subshape)
          mode (option_map (map (named_network f)) resistance) top nl2 bb with
  | None, None => True
  | Some out, Some out2 => exists capl resl capl2 resl2, adds nl out top bb capl resl /\ adds nl2 out2 top bb capl2 resl2 /\
      named_pairs f capl capl2 /\ named_pairs f resl resl2
  | _, _ => False
  end.
Proof.
  intros f mode shapes subshape polygons polygons' edges edges' resistance top nl nl2 bb (inj & fsub & fnone) fcut Hcalls Hnl.
  rewrite !run_is.
  assert (En : all_networks mode (option_map (map (named_network f)) resistance) = option_map (map (named_network f)) (all_networks mode resistance))
    by (unfold all_networks; destruct (UT_Model.need_resistance mode); reflexivity).
  assert (Ee : all_entries area dbu substrate overlaps sideoverlaps substrate_caps sidewalls cut fringe_cap shield_top polygons' edges' t
       (fun p => option_map (map (named_shape f)) (shapes p)) (map (named_shape f) subshape) metals mode
     = option_map (map (named_entry f)) (all_entries area dbu substrate overlaps sideoverlaps substrate_caps sidewalls cut fringe_cap shield_top polygons edges t shapes subshape metals mode)).
  { unfold all_entries. rewrite regions_named. destruct (LV_Model.layer_regions t shapes subshape metals) as [r|] eqn:Er; [|reflexivity].
    cbn [option_map]. specialize (Hcalls r eq_refl). destruct (UT_Model.need_capacitance mode); [|reflexivity]. rewrite keys_table.
    assert (A : overlap_entries area dbu substrate overlaps polygons' (dkeys r) (in_table (named_shape f) r) =
                option_map (map (named_entry f)) (overlap_entries area dbu substrate overlaps polygons (dkeys r) r)).
    { unfold overlap_entries. cbn [option_map]. f_equal. rewrite map_flat_map. unfold in_table at 2. rewrite map_length. apply flat_map_ext. intros idx.
      rewrite (proj1 (Hcalls idx)), map_flat_map, flat_map_map. apply flat_map_ext. intros c. unfold named_call. cbn [fst snd].
      rewrite (neighbors_named f inj area dbu substrate overlaps fsub), !map_map. apply map_ext. intros e. apply named_em_entry. }
    assert (B : sidewall_fringe_entries dbu substrate overlaps sideoverlaps substrate_caps sidewalls cut fringe_cap shield_top edges' (dkeys r) (in_table (named_shape f) r) =
                option_map (map (named_entry f)) (sidewall_fringe_entries dbu substrate overlaps sideoverlaps substrate_caps sidewalls cut fringe_cap shield_top edges (dkeys r) r)).
    { unfold sidewall_fringe_entries. unfold in_table at 2. rewrite map_length. rewrite <- (map_id (seq 0 (List.length r))) at 1.
      apply (collect_named f (fun i => i)). intros idx. rewrite (proj2 (Hcalls idx)). apply collect_named. intros c.
      now apply edge_entries_named. }
    rewrite A, B. destruct (overlap_entries area dbu substrate overlaps polygons (dkeys r) r) as [a|]; [|reflexivity].
    destruct (sidewall_fringe_entries dbu substrate overlaps sideoverlaps substrate_caps sidewalls cut fringe_cap shield_top edges (dkeys r) r) as [b|]; [|reflexivity].
    cbn [option_map]. rewrite map_app. reflexivity. }
  rewrite Ee, En. destruct (all_entries area dbu substrate overlaps sideoverlaps substrate_caps sidewalls cut fringe_cap shield_top polygons edges t shapes subshape metals mode) as [es|]; [|exact I]. destruct (all_networks mode resistance) as [n|]; [|exact I].
  cbn [option_map]. destruct (expand_adds nl top es n bb) as [A B]. destruct (expand_adds nl2 top (map (named_entry f) es) (map (named_network f) n) bb) as [A' B'].
  assert (Q : NX_Model.expand nl top [(top, with_networks (add_caps (map op_of es)) n)] bb = None <->
     NX_Model.expand nl2 top [(top, with_networks (add_caps (map op_of (map (named_entry f) es))) (map (named_network f) n))] bb = None).
  { rewrite A, A', Hnl, reports_f. destruct (resistor_reports n); cbn [option_map]; intuition discriminate. }
  destruct (NX_Model.expand nl _ _ _) as [out|], (NX_Model.expand nl2 _ _ _) as [out2|].
  - destruct (B out eq_refl) as (rr & capl & resl & R1 & D & S1 & S2). destruct (B' out2 eq_refl) as (rr' & capl' & resl' & R1' & D' & S1' & S2').
    rewrite reports_f, R1 in R1'. injection R1' as <-. rewrite rep_named in S1'.
    exists capl, resl, capl', resl'. split; [exact D|]. split; [exact D'|]. split; eapply named_sums; eauto.
  - destruct Q as [_ Q]. discriminate (Q eq_refl).
  - destruct Q as [Q _]. discriminate (Q eq_refl).
  - exact I.
Qed.

(** Another order: if KLayout presents the same polygons, edges, intervals and neighbours in
    another order (without ties and thin parts), the parasitics are the same, and the netlist is the same, numbers of devices and nets
    included, where no two pairs of nets differ only in case. *)
Theorem C108_reordered : forall mode shapes subshape (polygons polygons' : polygon_caller) (edges edges' : edge_caller) resistance top nl bb,
  OV_Spec.measure area -> (forall p s s', Permutation s s' -> Permutation (cut p s) (cut p s')) ->
  (forall r, LV_Model.layer_regions t shapes subshape metals = Some r -> forall idx,
     same_polygons (polygons r idx) (polygons' r idx) /\ same_edges cut (List.length (dkeys r)) idx (edges r idx) (edges' r idx)) ->
  match run polygons edges shapes subshape mode resistance top nl bb, run polygons' edges' shapes subshape mode resistance top nl bb with
  | None, None => True
  | Some out, Some out2 => exists capl resl capl2 resl2, adds nl out top bb capl resl /\ adds nl out2 top bb capl2 resl2 /\
      (forall x y v, has capl x y v <-> has capl2 x y v) /\ (forall x y v, has resl x y v <-> has resl2 x y v) /\
      (case_apart capl -> case_apart resl -> out = out2)
  | _, _ => False
  end.
Proof.
  intros mode shapes subshape polygons polygons' edges edges' resistance top nl bb M Hcut Hcalls. rewrite !run_is.
  assert (Ee : alike (all_entries area dbu substrate overlaps sideoverlaps substrate_caps sidewalls cut fringe_cap shield_top polygons edges t shapes subshape metals mode)
                     (all_entries area dbu substrate overlaps sideoverlaps substrate_caps sidewalls cut fringe_cap shield_top polygons' edges' t shapes subshape metals mode)).
  { unfold all_entries. destruct (LV_Model.layer_regions t shapes subshape metals) as [r|] eqn:Er; [|exact I]. specialize (Hcalls r eq_refl).
    destruct (UT_Model.need_capacitance mode); [|apply alike_refl].
    assert (A : alike (overlap_entries area dbu substrate overlaps polygons (dkeys r) r) (overlap_entries area dbu substrate overlaps polygons' (dkeys r) r)).
    { unfold overlap_entries. cbn [alike]. rewrite !rep_flat. induction (seq 0 (List.length r)) as [|idx l IH]; [constructor|]. cbn [flat_map]. apply Permutation_app; [|exact IH].
      apply (polygons_order area dbu substrate overlaps (OV_Spec.m_ext M) (dkeys r)), Hcalls. }
    assert (B : alike (sidewall_fringe_entries dbu substrate overlaps sideoverlaps substrate_caps sidewalls cut fringe_cap shield_top edges (dkeys r) r)
                      (sidewall_fringe_entries dbu substrate overlaps sideoverlaps substrate_caps sidewalls cut fringe_cap shield_top edges' (dkeys r) r)).
    { unfold sidewall_fringe_entries. apply (collect_alike (fun i j : nat => i = j)); [|induction (seq 0 (List.length r)); constructor; auto].
      intros idx ? <-. apply edges_order; [exact Hcut|apply Hcalls]. }
    destruct (overlap_entries _ _ _ _ polygons _ _) as [a|], (overlap_entries _ _ _ _ polygons' _ _) as [a'|]; try contradiction; [|exact I].
    destruct (sidewall_fringe_entries _ _ _ _ _ _ _ _ _ edges _ _) as [b|], (sidewall_fringe_entries _ _ _ _ _ _ _ _ _ edges' _ _) as [b'|]; try contradiction; [|exact I].
    cbn [alike] in *. rewrite !rep_app. now apply Permutation_app. }
  destruct (all_entries area dbu substrate overlaps sideoverlaps substrate_caps sidewalls cut fringe_cap shield_top polygons edges t shapes subshape metals mode) as [es|],
    (all_entries area dbu substrate overlaps sideoverlaps substrate_caps sidewalls cut fringe_cap shield_top polygons' edges' t shapes subshape metals mode) as [es'|]; try contradiction; [|exact I].
  cbn [alike] in Ee. destruct (all_networks mode resistance) as [n|]; [|exact I].
  destruct (expand_adds nl top es n bb) as [A B]. destruct (expand_adds nl top es' n bb) as [A' B'].
  destruct (NX_Model.expand nl top [(top, with_networks (add_caps (map op_of es)) n)] bb) as [out|] eqn:E1,
           (NX_Model.expand nl top [(top, with_networks (add_caps (map op_of es')) n)] bb) as [out2|] eqn:E2.
  - destruct (B out eq_refl) as (rr & capl & resl & R1 & D & S1 & S2). destruct (B' out2 eq_refl) as (rr' & capl' & resl' & R1' & D' & S1' & S2').
    rewrite R1 in R1'. injection R1' as <-.
    assert (H1 : forall x y v, has capl x y v <-> has capl' x y v).
    { intros x y v. rewrite (sums_has _ _ S1), (sums_has _ _ S1').
      assert (Rp : reported (rep es) x y = reported (rep es') x y) by (unfold reported; apply qsumf_perm, Ee). rewrite Rp.
      split; intros [Mm Ev]; (split; [|exact Ev]); (eapply mentioned_perm; [|exact Mm]); [exact Ee|symmetry; exact Ee]. }
    assert (H2 : forall x y v, has resl x y v <-> has resl' x y v) by (intros x y v; rewrite (sums_has _ _ S2), (sums_has _ _ S2'); tauto).
    exists capl, resl, capl', resl'. split; [exact D|]. split; [exact D'|]. split; [exact H1|]. split; [exact H2|].
    intros C1 C2. 
    assert (Hn : resistor_reports n <> None) by congruence.
    destruct (summary_of top es n Hn) as (sm & r1 & Es & Er1 & N & T1 & T2). destruct (summary_of top es' n Hn) as (sm' & r2 & Es' & Er2 & N' & T1' & T2').
    assert (r1 = rr) by congruence. assert (r2 = rr) by congruence. subst r1 r2.
    assert (K : forall l d, sums_of l d -> forall k v, In (k, v) d -> has d (fst k) (snd k) v) by (intros l d _ [a b] v I; left; exact I).
    assert (CD : forall l d e, sums_of l d -> sums_of l e -> case_apart e -> NX_Proofs.case_distinct d).
    { intros l d e Sd Se C k k' Hk Hk' E3 E4. apply in_map_iff in Hk. destruct Hk as ([k0 v] & <- & Hk). apply in_map_iff in Hk'. destruct Hk' as ([k0' v'] & <- & Hk').
      cbn [fst] in *. assert (X : has e (fst k0) (snd k0) v) by (apply (sums_has _ _ Se), (sums_has _ _ Sd), (K _ _ Sd), Hk).
      assert (X' : has e (fst k0') (snd k0') v') by (apply (sums_has _ _ Se), (sums_has _ _ Sd), (K _ _ Sd), Hk').
      destruct (C _ _ _ _ _ _ X X' E3 E4) as [F1 F2]. destruct k0, k0'. cbn in *. congruence. }
    enough (E : NX_Model.expand nl top [(top, with_networks (add_caps (map op_of es)) n)] bb = NX_Model.expand nl top [(top, with_networks (add_caps (map op_of es')) n)] bb) by congruence.
    eapply NX_Props.C58_expansion_deterministic; [exact Es|exact Es'| |exact (CD _ _ _ T1 S1 C1)|exact (CD _ _ _ T2 S2 C2)].
    intros x y. split.
    + exact (gives_perm _ _ _ _ Ee (proj1 N) (proj1 N') x y).
    + exact (gives_perm _ _ _ _ (Permutation_refl rr) (proj2 N) (proj2 N') x y).
  - assert (X := proj2 A (proj1 A' eq_refl)). discriminate X.
  - assert (X := proj2 A' (proj1 A eq_refl)). discriminate X.
  - exact I.
Qed.
End C108.
Print Assumptions C108_renamed.
Print Assumptions C108_reordered.

(** ** Concrete runs: the one of C86, with other names, and in another order *)
Local Open Scope string_scope.
Local Open Scope list_scope.
Notation x_run := (fun polygons edges nl => run_25d OV_Props.ov_area 1%Qc "VSUBS" E2_Props.x_overlaps E2_Props.x_side ["met1"; "poly"] E2_Props.x_sidewalls E2_Props.x_cut SF_Props.flat_fringe 3000
  polygons edges LV_Props.ex_tech E2_Props.x_shapes [] ["poly_con"; "met1_con"] UT_Model.CC None "top" nl true).
Notation x_run_named := (fun f polygons edges nl => run_25d OV_Props.ov_area 1%Qc "VSUBS" E2_Props.x_overlaps E2_Props.x_side ["met1"; "poly"] E2_Props.x_sidewalls E2_Props.x_cut SF_Props.flat_fringe 3000
  polygons edges LV_Props.ex_tech (fun p => option_map (map (named_shape f)) (E2_Props.x_shapes p)) [] ["poly_con"; "met1_con"] UT_Model.CC None "top" nl true).
Definition x_name (s : string) : string := if eqb s "VSUBS" || eqb s "" then s else String "x"%char s.
Lemma x_name_good : good_names x_name "VSUBS".
Proof.
  split; [|split; reflexivity]. intros a b. unfold x_name. 
  destruct (eqb a "VSUBS") eqn:A1; [apply eqb_eq in A1; subst a|]; [|destruct (eqb a "") eqn:A2; [apply eqb_eq in A2; subst a|]];
  (destruct (eqb b "VSUBS") eqn:B1; [apply eqb_eq in B1; subst b|]; [|destruct (eqb b "") eqn:B2; [apply eqb_eq in B2; subst b|]]);
  cbn [orb]; intros E; try reflexivity; try discriminate E. now inversion E.
Qed.
Definition y_polygons (r : dict string (list LV_Model.shape)) (idx : nat) := map (named_call x_name) (E2_Props.x_polygons r idx).
Definition y_edges (r : dict string (list LV_Model.shape)) (idx : nat) := map (named_edge x_name) (E2_Props.x_edges r idx).
Definition y_nl : NX_Model.netlist := NX_Model.Netlist [NX_Model.Circuit "top" [NX_Model.KNet 1 "xA"; NX_Model.KNet 2 "xB"; NX_Model.KNet 3 "xC"] []] [].
Example C108_renamed_case :
  good_names x_name "VSUBS" /\
  (forall p s, E2_Props.x_cut (named_spoly x_name p) (map (named_spoly x_name) s) = map (named_spoly x_name) (E2_Props.x_cut p s)) /\
  (forall r idx, y_polygons (in_table (named_shape x_name) r) idx = map (named_call x_name) (E2_Props.x_polygons r idx) /\
     y_edges (in_table (named_shape x_name) r) idx = map (named_edge x_name) (E2_Props.x_edges r idx)) /\
  map NX_Model.c_name (NX_Model.circuits y_nl) = map NX_Model.c_name (NX_Model.circuits E2_Props.x_nl) /\
  option_map E2_Props.shown (x_run E2_Props.x_polygons E2_Props.x_edges E2_Props.x_nl) = Some [("ext_1", [("A", 1); ("B", 2)], true); ("ext_2", [("A", 2); ("B", 3)], true)]%nat /\
  option_map E2_Props.shown (x_run_named x_name y_polygons y_edges y_nl) = Some [("ext_1", [("A", 1); ("B", 2)], true); ("ext_2", [("A", 2); ("B", 3)], true)]%nat.
Proof. split; [exact x_name_good|]. split; [reflexivity|]. split; [intros r idx; split; reflexivity|]. split; [reflexivity|]. split; vm_compute; reflexivity. Qed.

(** B and D next to each other above A *)
Definition right_half (p : nat) : bool := Nat.leb 4 p && Nat.ltb p 6.
Definition z_polygons (ps : list (OV_Model.poly nat)) (r : dict string (list LV_Model.shape)) (idx : nat) : list (OV_Model.poly nat * dict nat (list (OV_Model.poly nat))) :=
  match idx with 1%nat => [(OV_Model.Poly "A" (OV_Props.upto 8), [(2%nat, ps)])] | _ => [] end.
Definition z_edges (ivs : list ((Z * Z) * dict nat (list SF_Model.spoly))) (r : dict string (list LV_Model.shape)) (idx : nat) : list (string * list ((Z * Z) * dict nat (list SF_Model.spoly))) :=
  match idx with 2%nat => [("B", ivs)] | _ => [] end.
Notation pB := (OV_Model.Poly "B" (OV_Props.upto 4)).
Notation pD := (OV_Model.Poly "D" right_half).
Notation iv1 := ((0, 50)%Z, E2_Props.x_pbc).
Notation bA := (SF_Props.box "A" 0 10 100 50).
Notation bE := (SF_Props.box "E" 0 15 100 40).
Notation bC := (SF_Props.box "C" 0 20 100 60).
Notation bD := (SF_Props.box "D" 0 70 100 80).
Notation iv2 := ((50, 300)%Z, [(1%nat, [bA; bE]); (2%nat, [bC; bD])]).
Notation iv2' := ((50, 300)%Z, [(1%nat, [bE; bA]); (2%nat, [bD; bC])]).
Definition z_shown (nl : NX_Model.netlist) : list (string * list (string * nat)) :=
  match NX_Model.circuits nl with [c] => map (fun d => (NX_Model.d_name d, NX_Model.d_terms d)) (NX_Model.c_devices c) | _ => [] end.
Example C108_reordered_case :
  OV_Spec.measure OV_Props.ov_area /\
  (forall r idx, same_polygons (z_polygons [pB; pD] r idx) (z_polygons [pD; pB] r idx) /\ same_edges E2_Props.x_cut 3 idx (z_edges [iv1; iv2] r idx) (z_edges [iv2'; iv1] r idx)) /\
  (forall p s s', Permutation s s' -> Permutation (E2_Props.x_cut p s) (E2_Props.x_cut p s')) /\
  option_map z_shown (x_run (z_polygons [pB; pD]) (z_edges [iv1; iv2]) E2_Props.x_nl) =
    Some [("ext_1", [("A", 1); ("B", 2)]); ("ext_2", [("A", 1); ("B", 6)]); ("ext_3", [("A", 2); ("B", 3)]); ("ext_4", [("A", 2); ("B", 7)])]%nat.
Proof.
  split; [apply OV_Props.count_measure|]. split; [|split; [constructor; constructor|vm_compute; reflexivity]]. intros r idx. split.
  - destruct idx as [|[|idx]]; [exists []; split; constructor| |exists []; split; constructor].
    eexists. split; [apply Permutation_refl|]. cbn [z_polygons]. constructor; [|constructor]. split; [reflexivity|]. right. cbn [snd]. split.
    + intros k ps E. cbn [dget] in E. destruct (eq_dec k 2%nat); [|discriminate E]. injection E as <-. constructor; [|constructor; constructor].
      constructor; [|constructor]. intros x A B. cbn [OV_Model.p_points] in A, B. unfold OV_Props.upto in A. unfold right_half in B. apply Nat.ltb_lt in A. apply andb_prop in B. destruct B as [B _].
      apply Nat.leb_le in B. lia.
    + intros k. cbn [dget]. destruct (eq_dec k 2%nat); [apply perm_swap|exact I].
  - destruct idx as [|[|[|idx]]]; try (exists []; split; constructor).
    eexists. split; [apply Permutation_refl|]. cbn [z_edges]. constructor; [|constructor]. split; [reflexivity|].
    exists [iv2; iv1]. split; [apply perm_swap|]. constructor; [|constructor; [|constructor]].
    + split; [reflexivity|]. right. cbn [snd]. split; [|split].
      * constructor; [split; [reflexivity|apply perm_swap]|]. constructor; [split; [reflexivity|apply perm_swap]|constructor].
      * intros k ps [E|[E|[]]] K; injection E as <- <-; [destruct K; discriminate|].
        split; [repeat constructor; discriminate|]. constructor; [|constructor; constructor]. constructor; [|constructor].
        intros d H1 H2. apply SF_Proofs.ned_distance in H1; [|discriminate]. apply SF_Proofs.ned_distance in H2; [|discriminate]. cbn in H1, H2. lia.
      * intros k ps p [E|[E|[]]] K1 K2 Hp; injection E as <- <-; [|now destruct K1].
        destruct Hp as [<-|[<-|[]]]; intros [|s0 sh] q [<-|[]]; vm_compute; reflexivity.
    + split; [reflexivity|]. left. reflexivity.
Qed.

(** The order of the polygons of one interval does matter: of two equally near polygons of the
    same layer only the first gets the sidewall capacitance.  C and D are disjoint triangles
    whose lowest points are equally far from the edge of B. *)
Notation triC := (SF_Model.SPoly "C" [(0, 20); (0, 60); (40, 60)]%Z).
Notation triD := (SF_Model.SPoly "D" [(100, 20); (60, 60); (100, 60)]%Z).
Definition joins (nl : NX_Model.netlist) (x y : string) : Prop :=
  exists c d i j, NX_Model.circuits nl = [c] /\ In d (NX_Model.c_devices c) /\ NX_Model.d_terms d = [("A", i); ("B", j)] /\
    In (NX_Model.KNet i x) (NX_Model.c_nets c) /\ In (NX_Model.KNet j y) (NX_Model.c_nets c).
Definition t_nl : NX_Model.netlist := NX_Model.Netlist [NX_Model.Circuit "top" [NX_Model.KNet 1 "B"; NX_Model.KNet 2 "C"; NX_Model.KNet 3 "D"] []] [].
Theorem C108_order_in_interval_refuted : exists out out2,
  x_run (fun _ _ => []) (z_edges [((0, 100)%Z, [(2%nat, [triC; triD])])]) t_nl = Some out /\
  x_run (fun _ _ => []) (z_edges [((0, 100)%Z, [(2%nat, [triD; triC])])]) t_nl = Some out2 /\
  joins out "B" "C" /\ ~ joins out "B" "D" /\ joins out2 "B" "D" /\ ~ joins out2 "B" "C".
Proof.
  pose (view := fun nl : NX_Model.netlist => match NX_Model.circuits nl with
    | [c] => (map (fun n => (NX_Model.n_id n, NX_Model.n_name n)) (NX_Model.c_nets c), map NX_Model.d_terms (NX_Model.c_devices c)) | _ => ([], []) end).
  assert (V1 : option_map view (x_run (fun _ _ => []) (z_edges [((0, 100)%Z, [(2%nat, [triC; triD])])]) t_nl) =
     Some ([(1, "B"); (2, "C"); (3, "D"); (4, "FC_GND"); (5, "VSUBS")], [[("A", 1); ("B", 2)]])%nat) by (vm_compute; reflexivity).
  assert (V2 : option_map view (x_run (fun _ _ => []) (z_edges [((0, 100)%Z, [(2%nat, [triD; triC])])]) t_nl) =
     Some ([(1, "B"); (2, "C"); (3, "D"); (4, "FC_GND"); (5, "VSUBS")], [[("A", 1); ("B", 3)]])%nat) by (vm_compute; reflexivity).
  destruct (x_run (fun _ _ => []) (z_edges [((0, 100)%Z, [(2%nat, [triC; triD])])]) t_nl) as [out|]; [|discriminate V1].
  destruct (x_run (fun _ _ => []) (z_edges [((0, 100)%Z, [(2%nat, [triD; triC])])]) t_nl) as [out2|]; [|discriminate V2].
  exists out, out2. split; [reflexivity|]. split; [reflexivity|]. cbn [option_map] in V1, V2. injection V1 as V1. injection V2 as V2.
  assert (G : forall nl i, view nl = ([(1, "B"); (2, "C"); (3, "D"); (4, "FC_GND"); (5, "VSUBS")], [[("A", 1); ("B", i)]])%nat ->
     forall j n, In (j, n) [(2, "C"); (3, "D")]%nat -> (joins nl "B" n <-> i = j)).
  { intros nl i V j n Hn. unfold view in V. unfold joins. destruct (NX_Model.circuits nl) as [|c [|? ?]]; try discriminate V.
    pose proof (f_equal fst V) as Vn. pose proof (f_equal snd V) as Vd. cbn [fst snd] in Vn, Vd. clear V. split.
    - intros (c' & d & i' & j' & E & I & T & N1 & N2). injection E as <-. apply (in_map NX_Model.d_terms) in I. rewrite Vd in I.
      destruct I as [I|[]]. rewrite T in I. assert (Ei : i' = 1%nat) by congruence. assert (Ej : j' = i) by congruence. subst i' j'.
      apply (in_map (fun m => (NX_Model.n_id m, NX_Model.n_name m))) in N2. rewrite Vn in N2. cbn in N2, Hn.
      repeat (destruct Hn as [Hn|Hn]; [injection Hn as <- <-; repeat (destruct N2 as [N2|N2]; [try discriminate N2; congruence|]); destruct N2|]). destruct Hn.
    - intros ->. destruct (NX_Model.c_devices c) as [|d [|? ?]] eqn:Dd; try discriminate Vd. cbn in Vd.
      exists c, d, 1%nat, j. split; [reflexivity|]. split; [rewrite Dd; now left|]. split; [congruence|].
      assert (K : forall i m, In (i, m) [(1, "B"); (2, "C"); (3, "D"); (4, "FC_GND"); (5, "VSUBS")]%nat -> In (NX_Model.KNet i m) (NX_Model.c_nets c)).
      { intros i m I. rewrite <- Vn in I. apply in_map_iff in I. destruct I as ([a b] & E & I). cbn in E. injection E as <- <-. exact I. }
      split; apply K; cbn; [auto|]. cbn in Hn. destruct Hn as [Hn|[Hn|[]]]; injection Hn as <- <-; auto. }
  split; [apply (G _ _ V1 2%nat); cbn; auto|]. split; [rewrite (G _ _ V1 3%nat) by (cbn; auto); discriminate|].
  split; [apply (G _ _ V2 3%nat); cbn; auto|]. rewrite (G _ _ V2 2%nat) by (cbn; auto). discriminate.
Qed.
Print Assumptions C108_order_in_interval_refuted.
