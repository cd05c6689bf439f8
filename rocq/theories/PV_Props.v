(** C109: the signs of the parasitics in the 2.5D netlist. *)
From Coq Require Import String ZArith Lia.
From Verif Require Import PyBase PyLib QcLra ER_Model ER_Spec ER_Proofs E2_Model E2_Spec E2_Proofs SY_Spec SY_Proofs PV_Spec PV_Proofs.
From Verif Require OV_Model OV_Props SF_Model SF_Spec SF_Proofs SF_Props LV_Model LV_Props NX_Model NX_Spec UT_Model E2_Props PD_Model PD_Sky130A PD_Ihp PD_Side.
Local Open Scope Qc_scope.

Section C109.
Context {pt : Type}.
Variables (area : OV_Model.region pt -> Qc) (dbu : Qc) (substrate : string).
Variables (overlaps sideoverlaps : dict string (dict string Qc)) (substrate_caps : list string).
Variable sidewalls : dict string (Qc * Qc).
Variable cut : SF_Model.spoly -> list SF_Model.spoly -> list SF_Model.spoly.
Variable fringe_cap : Z -> Z -> Z -> Qc -> Qc -> option Qc.
Variable shield_top : Z.
Variable polygons : dict string (list LV_Model.shape) -> nat -> list (OV_Model.poly pt * dict nat (list (OV_Model.poly pt))).
Variable edges : dict string (list LV_Model.shape) -> nat -> list (string * list ((Z * Z) * dict nat (list SF_Model.spoly))).
Variables (t : LV_Model.tech) (shapes : LV_Model.gds -> option (list LV_Model.shape)) (subshape : list LV_Model.shape) (metals : list string).
Notation run sidewalls := (run_25d area dbu substrate overlaps sideoverlaps substrate_caps sidewalls cut fringe_cap shield_top polygons edges t shapes subshape metals).

(** Every capacitor which a run adds joins two different nets and is positive, and every resistor
    is positive if those of the extracted networks are. *)
Theorem C109_positive : forall mode resistance top nl bb out,
  0 < dbu -> positive_coefficients sidewalls ->
  (forall r, LV_Model.layer_regions t shapes subshape metals = Some r -> forall idx e, In e (edges r idx) -> far_enough dbu sidewalls (dkeys r) idx e) ->
  run sidewalls mode resistance top nl bb = Some out ->
  exists capl resl, adds nl out top bb capl resl /\ all_positive capl /\
    ((forall ns net e, resistance = Some ns -> In net ns -> In e (rnet_elements net) -> 0 < re_resistance e) ->
     forall x y v, has resl x y v -> 0 < v).
Proof.
  intros mode resistance top nl bb out Db Pc Far. rewrite run_is.
  destruct (all_entries area dbu substrate overlaps sideoverlaps substrate_caps sidewalls cut fringe_cap shield_top polygons edges t shapes subshape metals mode) as [es|] eqn:Ee; [|discriminate].
  destruct (all_networks mode resistance) as [n|] eqn:En; [|discriminate]. intros E.
  destruct (proj2 (expand_adds nl top es n bb) out E) as (rr & capl & resl & R1 & D & S1 & S2). exists capl, resl. split; [exact D|].
  assert (F : Forall sound_entry es).
  { unfold all_entries in Ee. destruct (LV_Model.layer_regions t shapes subshape metals) as [r|] eqn:Er; [|discriminate]. specialize (Far r eq_refl).
    destruct (UT_Model.need_capacitance mode); [|injection Ee as <-; constructor].
    destruct (overlap_entries area dbu substrate overlaps polygons (dkeys r) r) as [a|] eqn:Ea; [|discriminate].
    destruct (sidewall_fringe_entries dbu substrate overlaps sideoverlaps substrate_caps sidewalls cut fringe_cap shield_top edges (dkeys r) r) as [b|] eqn:Eb; [|discriminate].
    injection Ee as <-. apply Forall_app. split; [eapply overlaps_sound; eauto|]. eapply sidewalls_sound; eauto. }
  split; [eapply sums_positive; [exact S1|apply rep_sound, F]|]. intros P. eapply resistors_positive; eauto. intros net e I. unfold all_networks in En.
  destruct (UT_Model.need_resistance mode); [exact (P n net e En I)|injection En as <-; destruct I].
Qed.

(** The capacitors never hold negative energy, at any voltages of the nets, and none only if no
    capacitor has a voltage across it. *)
Theorem C109_energy : forall mode resistance top nl bb out,
  0 < dbu -> positive_coefficients sidewalls ->
  (forall r, LV_Model.layer_regions t shapes subshape metals = Some r -> forall idx e, In e (edges r idx) -> far_enough dbu sidewalls (dkeys r) idx e) ->
  run sidewalls mode resistance top nl bb = Some out ->
  exists capl resl, adds nl out top bb capl resl /\
    forall volt, 0 <= energy2 capl volt /\ (energy2 capl volt = 0 -> forall x y v, has capl x y v -> volt x = volt y).
Proof.
  intros mode resistance top nl bb out Db Pc Far E. destruct (C109_positive mode resistance top nl bb out Db Pc Far E) as (capl & resl & D & P & _).
  exists capl, resl. split; [exact D|]. assert (Q : forall e, In e capl -> 0 < snd e) by (intros [[x y] v] I; apply (P x y v); left; exact I).
  intros volt. split; [apply energy_nonneg, Q|]. intros Z x y v [I|I]; [|symmetry]; exact (energy_zero capl volt Q Z _ I).
Qed.

(** With the tables of sky130A it is enough that no two polygons of different nets on one layer
    touch; with those of IHP they must be more than 57 nm apart. *)
Theorem C109_shipped_tables : forall T margin mode resistance top nl bb out,
  T = PD_Sky130A.sky130A /\ margin = 0 \/ T = PD_Ihp.ihp /\ margin = Q2Qc (57 # 1000) ->
  0 < dbu ->
  (forall r, LV_Model.layer_regions t shapes subshape metals = Some r -> forall idx e, In e (edges r idx) -> beyond margin dbu idx e) ->
  run (PD_Model.sidewalls_of T) mode resistance top nl bb = Some out ->
  exists capl resl, adds nl out top bb capl resl /\ all_positive capl.
Proof.
  intros T margin mode resistance top nl bb out HT Db Far E.
  assert (K : PD_Side.caps_above margin T = true) by (destruct HT as [[-> ->]|[-> ->]]; [apply PD_Side.sky_caps|apply PD_Side.ihp_caps]).
  assert (G : forall layer c off, dget (PD_Model.sidewalls_of T) layer = Some (c, off) -> 0 < c /\ 0 <= margin + off).
  { intros layer c off H. unfold PD_Side.caps_above in K. rewrite forallb_forall in K. specialize (K _ (dget_In _ _ H)). simpl in K. apply andb_prop in K.
    destruct K as [K1 K2]. apply qltb_true in K1. apply qleb_true in K2. auto. }
  clear HT K. revert E. rewrite run_is. intros E.
  assert (X : exists capl resl, adds nl out top bb capl resl /\ all_positive capl /\ True); [|destruct X as (capl & resl & A & B & _); eauto].
  destruct (all_entries _ _ _ _ _ _ _ _ _ _ _ _ _ _ _ _ mode) as [es|] eqn:Ee; [|discriminate].
  destruct (all_networks mode resistance) as [n|] eqn:En; [|discriminate].
  destruct (proj2 (expand_adds nl top es n bb) out E) as (rr & capl & resl & R1 & D & S1 & S2). exists capl, resl. split; [exact D|]. split; [|exact I].
  eapply sums_positive; [exact S1|]. apply rep_sound.
  unfold all_entries in Ee. destruct (LV_Model.layer_regions t shapes subshape metals) as [r|] eqn:Er; [|discriminate]. specialize (Far r eq_refl).
  destruct (UT_Model.need_capacitance mode); [|injection Ee as <-; constructor].
  destruct (overlap_entries area dbu substrate overlaps polygons (dkeys r) r) as [a|] eqn:Ea; [|discriminate].
  destruct (sidewall_fringe_entries _ _ _ _ _ _ _ _ _ edges (dkeys r) r) as [b|] eqn:Eb; [|discriminate].
  injection Ee as <-. apply Forall_app. split; [eapply overlaps_sound; eauto|]. eapply sidewalls_sound; [exact Db| | |exact Eb].
  - intros layer c off H. apply (G layer c off H).
  - intros idx e I iv pbc ps p y c off A B C N L H. pose proof (Far idx e I iv pbc ps p y A B C N L) as M. destruct (G _ _ _ H) as [_ M2]. qclra.
Qed.
End C109.
Print Assumptions C109_positive.
Print Assumptions C109_energy.
Print Assumptions C109_shipped_tables.

(** ** Two runs *)
(** the run of E2_Props: B and C are 20 um apart, the offset is 1/4 um *)
Example C109_case : forall r, E2_Props.x_regions = Some r ->
  positive_coefficients E2_Props.x_sidewalls /\
  (forall idx e, In e (E2_Props.x_edges r idx) -> far_enough 1 E2_Props.x_sidewalls (dkeys r) idx e) /\
  exists e, In e (E2_Props.x_edges r 2) /\ exists iv pbc ps p, In (iv, pbc) (snd e) /\ In (2%nat, ps) pbc /\ In p ps /\ SF_Model.sp_net p <> fst e.
Proof.
  intros r _. split; [|split].
  - intros layer c off H. apply dget_In in H. destruct H as [H|[]]. assert (E : c = Q2Qc 40) by exact (f_equal (fun z => fst (snd z)) (eq_sym H)).
    rewrite E. apply qltb_true. vm_compute. reflexivity.
  - intros idx e I iv pbc ps p y c off A B C N L H. destruct idx as [|[|[|idx]]]; [destruct I|destruct I| |destruct I].
    apply dget_In in H. destruct H as [H|[]]. assert (Eo : off = Q2Qc (1 # 4)) by exact (f_equal (fun z => snd (snd z)) (eq_sym H)).
    assert (Y : y = 20%Z).
    { destruct I as [<-|[]]. cbn [snd] in A. destruct A as [A|[A|[A|[]]]]; injection A as _ <-; [..|destruct B];
        (destruct B as [B|[B|[]]]; [discriminate B|]; injection B as <-; destruct C as [<-|[]];
         refine (SF_Proofs.lowest_unique (SF_Props.box "C" 0 20 100 60) _ _ L _); split; [exists 0%Z; now left|]; intros q [<-|[<-|[<-|[<-|[]]]]]; cbn; lia). }
    rewrite Y, Eo. apply qltb_true. vm_compute. reflexivity.
  - exists ("B"%string, [((0, 100)%Z, E2_Props.x_pbc); ((100, 101)%Z, E2_Props.x_pbc); ((101, 300)%Z, [])]). split; [left; reflexivity|].
    exists (0, 100)%Z, E2_Props.x_pbc, [SF_Props.box "C" 0 20 100 60], (SF_Props.box "C" 0 20 100 60).
    split; [left; reflexivity|]. split; [right; left; reflexivity|]. split; [left; reflexivity|]. discriminate.
Qed.

(** With the tables of IHP the netlist can get a negative capacitor: two Metal1 shapes of
    different nets, 30 nm apart along 4 um. *)
Definition metal1_index : nat := 2.
Definition close_edges (r : dict string (list LV_Model.shape)) (idx : nat) : list (string * list ((Z * Z) * dict nat (list SF_Model.spoly))) :=
  if Nat.eqb idx metal1_index then [("A"%string, [((0, 4000)%Z, [(metal1_index, [SF_Props.box "B" 0 30 4000 900])])])] else [].
Notation ihp_run := (run_25d OV_Props.ov_area (Q2Qc (1 # 1000)) "VSUBS" (PD_Model.overlaps_of PD_Ihp.ihp) [] (PD_Model.substrates_of PD_Ihp.ihp) (PD_Model.sidewalls_of PD_Ihp.ihp)
  E2_Props.x_cut SF_Props.flat_fringe 18000 (fun _ _ => []) close_edges (PD_Model.tech_of PD_Ihp.ihp) (fun _ => Some []) [] (PD_Model.metals_of PD_Ihp.ihp)
  UT_Model.CC None "top"%string E2_Props.x_nl true).
Theorem C109_ihp_refuted : exists r out c d v,
  LV_Model.layer_regions (PD_Model.tech_of PD_Ihp.ihp) (fun _ => Some []) [] (PD_Model.metals_of PD_Ihp.ihp) = Some r /\
  nth metal1_index (dkeys r) EmptyString = "Metal1"%string /\
  (forall idx e, In e (close_edges r idx) -> beyond 0 (Q2Qc (1 # 1000)) idx e) /\
  ihp_run = Some out /\ NX_Model.circuits out = [c] /\ NX_Model.c_devices c = [d] /\
  NX_Model.d_class d = NX_Model.CCapacitor /\ NX_Model.d_params d = [("C"%string, v)] /\ v < 0.
Proof.
  assert (R : match LV_Model.layer_regions (PD_Model.tech_of PD_Ihp.ihp) (fun _ => Some []) [] (PD_Model.metals_of PD_Ihp.ihp) with
              | Some r => eqb (nth metal1_index (dkeys r) EmptyString) "Metal1"%string | None => false end = true) by (vm_compute; reflexivity).
  destruct (LV_Model.layer_regions (PD_Model.tech_of PD_Ihp.ihp) (fun _ => Some []) [] (PD_Model.metals_of PD_Ihp.ihp)) as [r|]; [|discriminate R].
  apply eqb_eq in R. exists r.
  assert (G : match ihp_run with
              | Some nl => match NX_Model.circuits nl with
                           | [c] => match NX_Model.c_devices c with
                                    | [d] => match NX_Model.d_params d, NX_Model.d_class d with [(n, v)], NX_Model.CCapacitor => eqb n "C"%string && qltb v 0 | _, _ => false end
                                    | _ => false
                                    end
                           | _ => false
                           end
              | None => false
              end = true) by (vm_compute; reflexivity).
  destruct ihp_run as [out|]; [|discriminate G]. destruct (NX_Model.circuits out) as [|c [|? ?]] eqn:Ec; try discriminate G.
  destruct (NX_Model.c_devices c) as [|d [|? ?]] eqn:Ed; try discriminate G.
  destruct (NX_Model.d_params d) as [|[n v] [|? ?]] eqn:Ep; try discriminate G. destruct (NX_Model.d_class d) eqn:Ek; try discriminate G.
  apply andb_prop in G. destruct G as [G1 G2]. apply eqb_eq in G1. apply qltb_true in G2. subst n.
  exists out, c, d, v. split; [reflexivity|]. split; [exact R|]. split; [|split; [reflexivity|]; auto 8].
  intros idx e I iv pbc ps p y A B C N L. unfold close_edges in I. destruct (Nat.eqb idx metal1_index); [|destruct I].
  assert (Y : y = 30%Z).
  { destruct I as [<-|[]]. destruct A as [A|[]]. injection A as _ <-. destruct B as [B|[]]. injection B as _ <-. destruct C as [<-|[]].
    refine (SF_Proofs.lowest_unique (SF_Props.box "B" 0 30 4000 900) _ _ L _). split; [exists 0%Z; now left|]. intros q [<-|[<-|[<-|[<-|[]]]]]; cbn; lia. }
  rewrite Y. apply qltb_true. vm_compute. reflexivity.
Qed.
Print Assumptions C109_ihp_refuted.
