(** C110: the database unit does not matter. *)
From Coq Require Import String ZArith Reals Lia.
From Verif Require Import PyBase PyLib QcLra ER_Model E2_Model SY_Spec SY_Proofs DU_Spec DU_Proofs.
From Verif Require OV_Model OV_Spec OV_Props SF_Model SF_Props LV_Model LV_Props NX_Model UT_Model E2_Props FR_Model.

Section C110.
Context {pt : Type}.
Variables (k : Z) (area area' : OV_Model.region pt -> Qc) (dbu dbu' : Qc) (substrate : string).
Variables (overlaps sideoverlaps : dict string (dict string Qc)) (substrate_caps : list string).
Variable sidewalls : dict string (Qc * Qc).
Variable cut : SF_Model.spoly -> list SF_Model.spoly -> list SF_Model.spoly.
Variables fringe_cap fringe_cap' : Z -> Z -> Z -> Qc -> Qc -> option Qc.
Variables (shield_top : Z) (t : LV_Model.tech) (metals : list string).

(** The same layout in a database unit [k] times finer: all coordinates are [k] times as large,
    areas (in square units) [k * k] times, the unit is [k] times as small in um.  Then the 2.5D
    engine writes the same netlist, unless an interval along an edge is exactly one (coarse)
    unit long. *)
Theorem C110_same_netlist : forall mode shapes subshape polygons polygons' edges edges' resistance top nl bb,
  (0 < k)%Z -> (SF_Model.zq k * dbu' = dbu)%Qc ->
  (forall r, area' r = SF_Model.zq k * SF_Model.zq k * area r)%Qc ->
  (forall p s, cut (finer_spoly k p) (map (finer_spoly k) s) = map (finer_spoly k) (cut p s)) ->
  (forall len near far oc sc, fringe_cap' (k * len)%Z (k * near)%Z (k * far)%Z oc sc = fringe_cap len near far oc sc) ->
  (forall r, LV_Model.layer_regions t shapes subshape metals = Some r -> forall idx,
     polygons' (in_table (finer_shape k) r) idx = polygons r idx /\
     edges' (in_table (finer_shape k) r) idx = map (finer_edge k) (edges r idx) /\
     Forall no_unit_interval (edges r idx)) ->
  run_25d area' dbu' substrate overlaps sideoverlaps substrate_caps sidewalls cut fringe_cap' (k * shield_top)
    polygons' edges' t (fun p => option_map (map (finer_shape k)) (shapes p)) (map (finer_shape k) subshape) metals mode resistance top nl bb =
  run_25d area dbu substrate overlaps sideoverlaps substrate_caps sidewalls cut fringe_cap shield_top
    polygons edges t shapes subshape metals mode resistance top nl bb.
Proof.
  intros mode shapes subshape polygons polygons' edges edges' resistance top nl bb kpos Hdbu Harea Hcut Hfr Hcalls. rewrite !run_is.
  enough (E : all_entries area' dbu' substrate overlaps sideoverlaps substrate_caps sidewalls cut fringe_cap' (k * shield_top) polygons' edges' t
       (fun p => option_map (map (finer_shape k)) (shapes p)) (map (finer_shape k) subshape) metals mode
     = all_entries area dbu substrate overlaps sideoverlaps substrate_caps sidewalls cut fringe_cap shield_top polygons edges t shapes subshape metals mode)
    by (rewrite E; reflexivity).
  unfold all_entries. rewrite (regions_map t shapes subshape (finer_shape k)).
  destruct (LV_Model.layer_regions t shapes subshape metals) as [r|] eqn:Er; [|reflexivity].
  cbn [option_map]. specialize (Hcalls r eq_refl). destruct (UT_Model.need_capacitance mode); [|reflexivity]. rewrite keys_table.
  assert (L : List.length (in_table (finer_shape k) r) = List.length r) by apply map_length.
  assert (A : overlap_entries area' dbu' substrate overlaps polygons' (dkeys r) (in_table (finer_shape k) r) = overlap_entries area dbu substrate overlaps polygons (dkeys r) r).
  { unfold overlap_entries. f_equal. rewrite L. apply flat_map_ext. intros idx. rewrite (proj1 (Hcalls idx)). apply flat_map_ext. intros c.
    rewrite (neighbors_finer k dbu dbu' substrate Hdbu overlaps (dkeys r) area area' Harea). reflexivity. }
  assert (B : sidewall_fringe_entries dbu' substrate overlaps sideoverlaps substrate_caps sidewalls cut fringe_cap' (k * shield_top) edges' (dkeys r) (in_table (finer_shape k) r) =
              sidewall_fringe_entries dbu substrate overlaps sideoverlaps substrate_caps sidewalls cut fringe_cap shield_top edges (dkeys r) r).
  { unfold sidewall_fringe_entries. rewrite L. rewrite <- (map_id (seq 0 (List.length r))) at 1. apply collect_map. intros idx _.
    destruct (Hcalls idx) as (_ & H1 & H2). rewrite H1. apply collect_map. intros c Ic. rewrite Forall_forall in H2. 
    apply edge_entries_finer; auto. }
  rewrite A, B. reflexivity.
Qed.
End C110.
Print Assumptions C110_same_netlist.

(** The condition on fringe_cap is met by the code: lengths and distances [k] times as large, in a
    unit [k] times as small. *)
Theorem C110_fringe : forall (k dbu side_halo : R) scale len near far oc sc,
  (0 < k)%R ->
  FR_Model.fringe_cap (dbu / k) side_halo scale (k * len) (k * near) (k * far) oc sc = FR_Model.fringe_cap dbu side_halo scale len near far oc sc.
Proof.
  intros k dbu side_halo scale len near far oc sc Hk. unfold FR_Model.fringe_cap. cbv zeta.
  assert (U : forall z, (k * z * (dbu / k) = z * dbu)%R) by (intros z; field; intros ->; exact (Rlt_irrefl _ Hk)). rewrite !U. reflexivity.
Qed.
Print Assumptions C110_fringe.

(** ** A concrete run: the one of C86, in units of 1 and of 1/2 *)
Local Open Scope string_scope.
Local Open Scope list_scope.
Notation half := (Q2Qc (1 # 2)).
Definition f_area (r : OV_Model.region nat) : Qc := (SF_Model.zq 2 * SF_Model.zq 2 * OV_Props.ov_area r)%Qc.
Definition f_fringe (len near far : Z) (oc sc : Qc) : option Qc := Some (SF_Model.zq (far - near) * half * (SF_Model.zq len * half))%Qc.
Definition c_edges (ivs : list ((Z * Z) * dict nat (list SF_Model.spoly))) (r : dict string (list LV_Model.shape)) (idx : nat) : list (string * list ((Z * Z) * dict nat (list SF_Model.spoly))) :=
  match idx with 2%nat => [("B", ivs)] | _ => [] end.
Definition f_edges ivs (r : dict string (list LV_Model.shape)) (idx : nat) := map (finer_edge 2) (c_edges ivs r idx).
Notation coarse ivs := (run_25d OV_Props.ov_area 1%Qc "VSUBS" E2_Props.x_overlaps E2_Props.x_side ["met1"; "poly"] E2_Props.x_sidewalls E2_Props.x_cut SF_Props.flat_fringe 3000
  E2_Props.x_polygons (c_edges ivs) LV_Props.ex_tech E2_Props.x_shapes [] ["poly_con"; "met1_con"] UT_Model.CC None "top" E2_Props.x_nl true).
Notation fine ivs := (run_25d f_area half "VSUBS" E2_Props.x_overlaps E2_Props.x_side ["met1"; "poly"] E2_Props.x_sidewalls E2_Props.x_cut f_fringe (2 * 3000)
  E2_Props.x_polygons (f_edges ivs) LV_Props.ex_tech (fun p => option_map (map (finer_shape 2)) (E2_Props.x_shapes p)) (map (finer_shape 2) []) ["poly_con"; "met1_con"] UT_Model.CC None "top" E2_Props.x_nl true).
(** what the theorem asks of the two runs, but for the intervals *)
Definition finer_setting ivs : Prop :=
  (0 < 2)%Z /\ (SF_Model.zq 2 * half = 1)%Qc /\ (forall r, f_area r = SF_Model.zq 2 * SF_Model.zq 2 * OV_Props.ov_area r)%Qc /\
  (forall p s, E2_Props.x_cut (finer_spoly 2 p) (map (finer_spoly 2) s) = map (finer_spoly 2) (E2_Props.x_cut p s)) /\
  (forall len near far oc sc, f_fringe (2 * len)%Z (2 * near)%Z (2 * far)%Z oc sc = SF_Props.flat_fringe len near far oc sc) /\
  (forall r idx, E2_Props.x_polygons (in_table (finer_shape 2) r) idx = E2_Props.x_polygons r idx /\
     f_edges ivs (in_table (finer_shape 2) r) idx = map (finer_edge 2) (c_edges ivs r idx)).
Lemma setting ivs : finer_setting ivs.
Proof.
  assert (T : (SF_Model.zq 2 * half = 1)%Qc) by (apply Qc_is_canon; vm_compute; reflexivity).
  split; [reflexivity|]. split; [exact T|]. split; [reflexivity|]. split; [reflexivity|]. split; [|intros r idx; split; reflexivity].
  intros len near far oc sc. unfold f_fringe, SF_Props.flat_fringe. f_equal. replace (2 * far - 2 * near)%Z with (2 * (far - near))%Z by lia. rewrite !zq_mul.
  transitivity ((SF_Model.zq 2 * half) * (SF_Model.zq 2 * half) * (SF_Model.zq (far - near) * SF_Model.zq len))%Qc; [ring|]. rewrite T. ring.
Qed.
Example C110_case :
  finer_setting [((0, 100)%Z, E2_Props.x_pbc)] /\ (forall r idx, Forall no_unit_interval (c_edges [((0, 100)%Z, E2_Props.x_pbc)] r idx)) /\
  option_map E2_Props.shown (coarse [((0, 100)%Z, E2_Props.x_pbc)]) = Some [("ext_1", [("A", 1); ("B", 2)], true); ("ext_2", [("A", 2); ("B", 3)], true)]%nat /\
  option_map E2_Props.shown (fine [((0, 100)%Z, E2_Props.x_pbc)]) = Some [("ext_1", [("A", 1); ("B", 2)], true); ("ext_2", [("A", 2); ("B", 3)], true)]%nat.
Proof.
  split; [apply setting|]. split; [|split; vm_compute; reflexivity]. intros r idx. destruct idx as [|[|[|idx]]]; constructor; [|constructor].
  intros a b pbc [E|[]] _. injection E as <- <- _. discriminate.
Qed.

Definition f_shown (nl : NX_Model.netlist) : list (string * list (string * nat)) := map fst (E2_Props.shown nl).
(** An interval one unit long does matter: it is dropped in the coarse unit and counted in the
    finer one, so a capacitor between B and C is in one netlist only. *)
Theorem C110_unit_interval_refuted : exists out out2,
  finer_setting [((0, 1)%Z, E2_Props.x_pbc)] /\
  coarse [((0, 1)%Z, E2_Props.x_pbc)] = Some out /\ fine [((0, 1)%Z, E2_Props.x_pbc)] = Some out2 /\
  f_shown out = [("ext_1", [("A", 1); ("B", 2)])]%nat /\
  f_shown out2 = [("ext_1", [("A", 1); ("B", 2)]); ("ext_2", [("A", 2); ("B", 3)])]%nat /\ out <> out2.
Proof.
  assert (V1 : option_map f_shown (coarse [((0, 1)%Z, E2_Props.x_pbc)]) = Some [("ext_1", [("A", 1); ("B", 2)])]%nat) by (vm_compute; reflexivity).
  assert (V2 : option_map f_shown (fine [((0, 1)%Z, E2_Props.x_pbc)]) = Some [("ext_1", [("A", 1); ("B", 2)]); ("ext_2", [("A", 2); ("B", 3)])]%nat) by (vm_compute; reflexivity).
  destruct (coarse [((0, 1)%Z, E2_Props.x_pbc)]) as [out|]; [|discriminate V1]. destruct (fine [((0, 1)%Z, E2_Props.x_pbc)]) as [out2|]; [|discriminate V2].
  exists out, out2. split; [apply setting|]. split; [reflexivity|]. split; [reflexivity|]. injection V1 as V1. injection V2 as V2.
  split; [exact V1|]. split; [exact V2|]. intros ->. rewrite V1 in V2. discriminate V2.
Qed.
Print Assumptions C110_unit_interval_refuted.
