(** Theorems about the shipped PDKs sky130A and ihp_sg13g2, for every LVS database. *)
From Coq Require Import String ZArith Lia QArith.
From Verif Require Import PyBase PyLib QcLra SW_Model TI_Model TI_Spec TI_Proofs TI_Props LV_Model LV_Spec LV_Proofs LV_Props RQ_Model RQ_Spec RQ_Proofs RQ_Props
  PD_Model PD_Sky130A PD_Ihp PD_Spec PD_Proofs.
From Verif Require OV_Model SF_Model SF_Spec SF_Proofs SF_Props.
Local Open Scope string_scope.
Local Open Scope list_scope.

Definition ov_ok (T : technology) (bot top : string) : bool :=
  match OV_Model.spec_for (overlaps_of T) top bot with Some c => qltb 0 c | None => false end.
Definition sw_ok (T : technology) (a : string) : bool :=
  eqb a "VSUBS" || match dget (sidewalls_of T) a with Some (c, _) => qltb 0 c | None => false end.
Definition fr_ok (T : technology) (so : dict string (dict string Qc)) (a b : string) : bool :=
  eqb a "VSUBS" || eqb a b || match SF_Model.fringe_specs (overlaps_of T) so (substrates_of T) a b with Some (oc, sc) => qltb 0 oc && qltb 0 sc | None => false end.
Definition tables_ok (T : technology) (names : list string) : bool :=
  nodup_b names && pairs_ok (ov_ok T) names && forallb (sw_ok T) names &&
  match sideoverlaps_of T with Some so => forallb (fun a => forallb (fr_ok T so a) names) names | None => false end &&
  forallb (fun m => match canonical_metal (tech_of T) m with Some _ => true | None => false end) (metals_of T).
Lemma tables_checked T : shipped T -> tables_ok T (possible_names (tech_of T) true (metals_of T)) = true.
Proof. intros [-> | ->]; vm_compute; reflexivity. Qed.

(** ** C72: with black-boxed devices the capacitance extractors find every entry they need *)
Theorem C72_tables : forall T db substrate, shipped T -> db_wf db ->
  exists d so, layer_regions (tech_of T) (shapes_of_layer (tech_of T) true db) substrate (metals_of T) = Some d /\
    sideoverlaps_of T = Some so /\ NoDup (dkeys d) /\
    (forall i j bot top, (i < j)%nat -> nth_error (dkeys d) i = Some bot -> nth_error (dkeys d) j = Some top ->
       exists c, OV_Model.spec_for (overlaps_of T) top bot = Some c /\ (0 < c)%Qc) /\
    (forall a, In a (dkeys d) -> a <> "VSUBS" -> exists c offset, dget (sidewalls_of T) a = Some (c, offset) /\ (0 < c)%Qc) /\
    (forall a b, In a (dkeys d) -> In b (dkeys d) -> a <> "VSUBS" -> a <> b ->
       exists oc sc, SF_Model.fringe_specs (overlaps_of T) so (substrates_of T) a b = Some (oc, sc) /\ (0 < oc)%Qc /\ (0 < sc)%Qc).
Proof.
  intros T db sub ST wf. pose proof (tables_checked T ST) as K. unfold tables_ok in K.
  apply andb_prop in K. destruct K as [K Kc]. apply andb_prop in K. destruct K as [K Kf]. apply andb_prop in K. destruct K as [K Ks].
  apply andb_prop in K. destruct K as [Kn Ko]. destruct (sideoverlaps_of T) as [so|]; [|discriminate].
  pose proof (C66_regions (tech_of T) (shapes_of_layer (tech_of T) true db) sub (metals_of T)) as G.
  pose proof (present_sub (tech_of T) true db (metals_of T) wf) as S.
  pose proof (subseq_NoDup _ _ S (nodup_b_ok _ Kn)) as Nd.
  destruct (layer_regions _ _ _ _) as [d|].
  2:{ destruct G as (m & I & E). rewrite forallb_forall in Kc. specialize (Kc m I). rewrite E in Kc. discriminate. }
  destruct G as (_ & D & _). rewrite (distinct_same _ Nd) in D. rewrite <- D in S, Nd.
  exists d, so. split; [reflexivity|]. split; [reflexivity|]. split; [exact Nd|]. repeat split.
  - intros i j bot top L Ei Ej. pose proof (pairs_ok_nth _ _ (pairs_ok_sub _ _ _ S Ko) i j bot top L Ei Ej) as P. unfold ov_ok in P.
    destruct (OV_Model.spec_for _ _ _) as [c|]; [|discriminate]. exists c. split; [reflexivity|]. apply qltb_true, P.
  - intros a I Na. rewrite forallb_forall in Ks. specialize (Ks a (subseq_In _ _ S a I)). unfold sw_ok in Ks.
    rewrite (proj2 (eqb_false a "VSUBS") Na) in Ks. simpl in Ks. destruct (dget _ a) as [[c o]|]; [|discriminate]. exists c, o. split; [reflexivity|]. apply qltb_true, Ks.
  - intros a b Ia Ib Na Nab. rewrite forallb_forall in Kf. specialize (Kf a (subseq_In _ _ S a Ia)). rewrite forallb_forall in Kf. specialize (Kf b (subseq_In _ _ S b Ib)).
    unfold fr_ok in Kf. rewrite (proj2 (eqb_false a "VSUBS") Na), (proj2 (eqb_false a b) Nab) in Kf. simpl in Kf.
    destruct (SF_Model.fringe_specs _ _ _ _ _) as [[oc sc]|]; [|discriminate]. apply andb_prop in Kf. destruct Kf as [A B].
    exists oc, sc. split; [reflexivity|]. split; apply qltb_true; assumption.
Qed.
Print Assumptions C72_tables.
(** a database with shapes on the LVS layers [ns], one square each; all layers of the technology are covered *)
Definition sq (x : Z) : LV_Model.poly := LV_Model.Poly [(x, 0); (x, 10); (x + 10, 10); (x + 10, 0)]%Z [].
Definition db_on (ns : list string) : lvsdb :=
  LvsDB (map (fun e : nat * string => LvsLayer (fst e) (snd e) None) (enumerate ns)) (fun i => [(sq (20 * Z.of_nat i), "A"); (sq (20 * Z.of_nat i), "B")]).
Lemma db_on_wf ns : db_wf (db_on ns).
Proof.
  unfold db_wf, db_on, enumerate. simpl. rewrite map_map. simpl.
  assert (G : forall n, map (fun e : nat * string => fst e) (combine (seq n (List.length ns)) ns) = seq n (List.length ns)).
  { induction ns as [|x ns IH]; intros n; simpl; [reflexivity|]. rewrite IH. reflexivity. }
  rewrite G. apply seq_NoDup.
Qed.
Lemma db_on_names ns : map lv_name (db_layers (db_on ns)) = ns.
Proof.
  unfold db_on, enumerate. simpl. rewrite map_map. simpl. generalize 0%nat. induction ns as [|x ns IH]; intros n; simpl; [reflexivity|]. rewrite IH. reflexivity.
Qed.
Lemma db_on_layer ns l : In l (db_layers (db_on ns)) -> db_shapes (db_on ns) (lv_index l) <> [].
Proof. intros _. discriminate. Qed.
Definition names_on (T : technology) (blackbox : bool) (ns : list string) : option (list string) :=
  option_map dkeys (layer_regions (tech_of T) (shapes_of_layer (tech_of T) blackbox (db_on ns)) [] (metals_of T)).
(** the same, computed with the specification of the layer extraction, which is faster *)
Lemma names_on_spec T b ns : forallb (fun m => match canonical_metal (tech_of T) m with Some _ => true | None => false end) (metals_of T) = true ->
  names_on T b ns = Some (distinct ("VSUBS" :: map fst (present (tech_of T)
    (fun p => match sources (tech_of T) b (db_on ns) p with [] => None | _ => Some [] end) (metals_of T)))).
Proof.
  intros K. unfold names_on. pose proof (C66_regions (tech_of T) (shapes_of_layer (tech_of T) b (db_on ns)) [] (metals_of T)) as G.
  destruct (layer_regions _ _ _ _) as [d|]; simpl.
  - destruct G as (_ & -> & _).
    assert (E : map fst (present (tech_of T) (shapes_of_layer (tech_of T) b (db_on ns)) (metals_of T)) =
                map fst (present (tech_of T) (fun p => match sources (tech_of T) b (db_on ns) p with [] => None | _ => Some [] end) (metals_of T))).
    { clear. unfold present. induction (metals_of T) as [|m ms IH]; [reflexivity|]. cbn [flat_map]. rewrite !map_app. f_equal; [|exact IH].
      unfold metal_shapes. destruct (canonical_metal (tech_of T) m), (pair_of (tech_of T) m); try reflexivity. rewrite (layer_shapes_eq _ _ _ (db_on_wf ns)).
      destruct (sources _ _ _ _); reflexivity. }
    rewrite E. reflexivity.
  - destruct G as (m & I & E). rewrite forallb_forall in K. specialize (K m I). rewrite E in K. discriminate.
Qed.
Example C72_case :
  names_on sky130A true ["met5_con"; "capm"; "met4_cap"; "poly_con"; "met3_ncap"; "nwell"] = Some ["VSUBS"; "poly"; "met3"; "met5"] /\
  names_on ihp true ["cmim_top"; "topmetal2_con"; "metal5_n_cap"; "metal5_cap"; "metal1_con"] = Some ["VSUBS"; "Metal1"; "Metal5"; "TopMetal2"] /\
  names_on sky130A true (map cl_name (computed (tech_of sky130A))) = Some ["VSUBS"; "poly"; "li1"; "met1"; "met2"; "met3"; "met4"; "met5"].
Proof. rewrite !names_on_spec by (vm_compute; reflexivity). vm_compute. auto. Qed.
Lemma names_on_get T b ns names : names_on T b ns = Some names ->
  exists d, layer_regions (tech_of T) (shapes_of_layer (tech_of T) b (db_on ns)) [] (metals_of T) = Some d /\ dkeys d = names.
Proof. unfold names_on. destruct (layer_regions _ _ _ _) as [d|]; [|discriminate]. intros [= E]. exists d. auto. Qed.
Definition no_fringe (T : technology) (a b : string) : bool :=
  match sideoverlaps_of T with
  | Some so => match SF_Model.fringe_specs (overlaps_of T) so (substrates_of T) a b with None => true | Some _ => false end
  | None => true
  end.
Lemma no_fringe_raises T so a b : sideoverlaps_of T = Some so -> no_fringe T a b = true -> forall cut fringe_cap net iv ps shield,
  SF_Model.emit_fringe "VSUBS" (overlaps_of T) so (substrates_of T) cut fringe_cap a net b iv ps shield = None.
Proof.
  unfold no_fringe. intros -> N cut fc net iv ps sh. unfold SF_Model.emit_fringe. destruct (SF_Model.fringe_specs _ _ _ _ _); [discriminate|reflexivity].
Qed.
Lemma side_table T : shipped T -> exists so, sideoverlaps_of T = Some so.
Proof.
  intros S. pose proof (tables_checked T S) as K. unfold tables_ok in K. destruct (sideoverlaps_of T) as [so|]; [eauto|].
  rewrite !Bool.andb_false_r in K. simpl in K. discriminate.
Qed.
Lemma mim_names : names_on sky130A false ["met3_cap"; "capm"; "met4_ncap"] = Some ["VSUBS"; "met3"; "capm"; "met4"].
Proof. rewrite names_on_spec by (vm_compute; reflexivity). vm_compute. reflexivity. Qed.
Lemma cmim_names : names_on ihp false ["metal5_cap"; "cmim_top"; "topmetal1_con"] = Some ["VSUBS"; "Metal5"; "<TODO>"; "TopMetal1"].
Proof. rewrite names_on_spec by (vm_compute; reflexivity). vm_compute. reflexivity. Qed.
Lemma mim_fringe : no_fringe sky130A "met4" "capm" && no_fringe sky130A "capm" "met4" && no_fringe ihp "<TODO>" "Metal5" = true.
Proof. vm_compute. reflexivity. Qed.
Lemma mim_overlap : OV_Model.spec_for (overlaps_of sky130A) "met4" "capm" = None /\ OV_Model.spec_for (overlaps_of sky130A) "capm" "met3" = None /\
  OV_Model.spec_for (overlaps_of ihp) "TopMetal1" "<TODO>" = None.
Proof. vm_compute. auto. Qed.
(** without black boxes the plates of MiM capacitors are extracted as well; there are no numbers for them: the overlap
    extraction skips everything from the first layer above, and the fringe extraction ends with a KeyError *)
Theorem C72_mim_refuted : exists db d so, db_wf db /\
  layer_regions (tech_of sky130A) (shapes_of_layer (tech_of sky130A) false db) [] (metals_of sky130A) = Some d /\ sideoverlaps_of sky130A = Some so /\
  dkeys d = ["VSUBS"; "met3"; "capm"; "met4"] /\
  OV_Model.spec_for (overlaps_of sky130A) "met4" "capm" = None /\ OV_Model.spec_for (overlaps_of sky130A) "capm" "met3" = None /\
  forall cut fringe_cap net iv ps shield,
    SF_Model.emit_fringe "VSUBS" (overlaps_of sky130A) so (substrates_of sky130A) cut fringe_cap "met4" net "capm" iv ps shield = None /\
    SF_Model.emit_fringe "VSUBS" (overlaps_of sky130A) so (substrates_of sky130A) cut fringe_cap "capm" net "met4" iv ps shield = None.
Proof.
  destruct (names_on_get _ _ _ _ mim_names) as (d & L & K). destruct (side_table sky130A (or_introl eq_refl)) as (so & S).
  pose proof mim_fringe as F. apply andb_prop in F. destruct F as [F _]. apply andb_prop in F. destruct F as [F1 F2]. destruct mim_overlap as (O1 & O2 & _).
  exists (db_on ["met3_cap"; "capm"; "met4_ncap"]), d, so.
  split; [apply db_on_wf|]. split; [exact L|]. split; [exact S|]. split; [exact K|]. split; [exact O1|]. split; [exact O2|].
  intros. split; apply no_fringe_raises; assumption.
Qed.
Print Assumptions C72_mim_refuted.
(** the same on ihp_sg13g2, where the layer of the plate has no name yet *)
Theorem C72_cmim_refuted : exists db d so, db_wf db /\
  layer_regions (tech_of ihp) (shapes_of_layer (tech_of ihp) false db) [] (metals_of ihp) = Some d /\ sideoverlaps_of ihp = Some so /\
  dkeys d = ["VSUBS"; "Metal5"; "<TODO>"; "TopMetal1"] /\
  OV_Model.spec_for (overlaps_of ihp) "TopMetal1" "<TODO>" = None /\
  forall cut fringe_cap net iv ps shield,
    SF_Model.emit_fringe "VSUBS" (overlaps_of ihp) so (substrates_of ihp) cut fringe_cap "<TODO>" net "Metal5" iv ps shield = None.
Proof.
  destruct (names_on_get _ _ _ _ cmim_names) as (d & L & K). destruct (side_table ihp (or_intror eq_refl)) as (so & S).
  pose proof mim_fringe as F. apply andb_prop in F. destruct F as [_ F]. destruct mim_overlap as (_ & _ & O).
  exists (db_on ["metal5_cap"; "cmim_top"; "topmetal1_con"]), d, so.
  split; [apply db_on_wf|]. split; [exact L|]. split; [exact S|]. split; [exact K|]. split; [exact O|].
  intros. apply no_fringe_raises; assumption.
Qed.
Print Assumptions C72_cmim_refuted.
