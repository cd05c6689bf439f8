(** C112: mode RC gives what modes CC and R give. *)
From Coq Require Import String ZArith Permutation Lia.
From Verif Require Import PyBase PyLib ER_Model ER_Spec ER_Proofs E2_Model E2_Spec E2_Proofs SY_Spec SY_Proofs.
From Verif Require OV_Model OV_Props SF_Model SF_Props LV_Model LV_Props NX_Model UT_Model E2_Props.

Lemma sums_nil l : sums_of [] l -> l = [].
Proof.
  destruct l as [|[[a b] v] l]; [reflexivity|]. intros (_ & A & _). destruct (A a b v (or_introl eq_refl)) as [(x & y & w & I & _) _]. destruct I.
Qed.

Section C112.
Context {pt : Type}.
Variables (area : OV_Model.region pt -> Qc) (dbu : Qc) (substrate : string).
Variables (overlaps sideoverlaps : dict string (dict string Qc)) (substrate_caps : list string).
Variable sidewalls : dict string (Qc * Qc).
Variable cut : SF_Model.spoly -> list SF_Model.spoly -> list SF_Model.spoly.
Variable fringe_cap : Z -> Z -> Z -> Qc -> Qc -> option Qc.
Variables (shield_top : Z) (t : LV_Model.tech) (metals : list string).
Notation run polygons edges shapes subshape := (run_25d area dbu substrate overlaps sideoverlaps substrate_caps sidewalls cut fringe_cap shield_top
  polygons edges t shapes subshape metals).

(** A run in mode RC succeeds if and only if those in modes CC and R do; its capacitors are those
    of mode CC, its resistors those of mode R, and the other two add nothing else. *)
Theorem C112_modes : forall polygons edges shapes subshape resistance top nl bb,
  let result mode := run polygons edges shapes subshape mode resistance top nl bb in
  (result UT_Model.RC <> None <-> result UT_Model.CC <> None /\ result UT_Model.R <> None) /\
  forall both caps ress, result UT_Model.RC = Some both -> result UT_Model.CC = Some caps -> result UT_Model.R = Some ress ->
    exists capl resl capl2 resl2, adds nl both top bb capl resl /\ adds nl caps top bb capl2 [] /\ adds nl ress top bb [] resl2 /\
      forall x y v, (has capl x y v <-> has capl2 x y v) /\ (has resl x y v <-> has resl2 x y v).
Proof.
  intros polygons edges shapes subshape resistance top nl bb result. unfold result. rewrite !run_is. clear result.
  unfold all_networks. cbn [UT_Model.need_resistance]. unfold all_entries. cbn [UT_Model.need_capacitance].
  destruct (LV_Model.layer_regions t shapes subshape metals) as [r|]; [|split; [split; [intros C; now destruct C|intros [C _]; now destruct C]|discriminate]].
  set (es := match overlap_entries area dbu substrate overlaps polygons (dkeys r) r with Some a => _ | None => None end).
  destruct es as [es|]; [|split; [split; [intros C; now destruct C|intros [C _]; now destruct C]|discriminate]].
  destruct resistance as [n|]; [|split; [split; [intros C; now destruct C|intros [_ C]; now destruct C]|discriminate]].
  destruct (expand_adds nl top es n bb) as [A1 B1]. destruct (expand_adds nl top es [] bb) as [A2 B2]. destruct (expand_adds nl top [] n bb) as [A3 B3]. split.
  - assert (R0 : resistor_reports [] <> None) by discriminate. split.
    + intros H. split; intros C; apply H, A1; [apply A2 in C|apply A3 in C]; tauto.
    + intros [H2 H3] C. apply A1 in C. destruct C as [C|C]; [apply H3, A3|apply H2, A2]; tauto.
  - intros both caps ress E1 E2 E3. destruct (B1 _ E1) as (rr & capl & resl & R1 & D1 & S1 & T1). destruct (B2 _ E2) as (rr2 & capl2 & resl0 & R2 & D2 & S2 & T2).
    destruct (B3 _ E3) as (rr3 & capl0 & resl2 & R3 & D3 & S3 & T3). injection R2 as <-. apply sums_nil in T2, S3. subst resl0 capl0.
    assert (rr3 = rr) by congruence. subst rr3. exists capl, resl, capl2, resl2. split; [exact D1|]. split; [exact D2|]. split; [exact D3|].
    intros x y v. rewrite (sums_has _ _ S1), (sums_has _ _ S2), (sums_has _ _ T1), (sums_has _ _ T3). tauto.
Qed.
End C112.
Print Assumptions C112_modes.

(** ** A concrete run: the one of C86 with a resistor between A and B *)
Local Open Scope string_scope.
Local Open Scope list_scope.
Definition m_network : rnetwork := RNetwork [RNode 0 "A"; RNode 1 "B"] [RElement 0 1 (Q2Qc 5)].
Notation m_run mode := (run_25d OV_Props.ov_area 1%Qc "VSUBS" E2_Props.x_overlaps E2_Props.x_side ["met1"; "poly"] E2_Props.x_sidewalls E2_Props.x_cut SF_Props.flat_fringe 3000
  E2_Props.x_polygons E2_Props.x_edges LV_Props.ex_tech E2_Props.x_shapes [] ["poly_con"; "met1_con"] mode (Some [m_network]) "top" E2_Props.x_nl true).
Definition m_shown (nl : NX_Model.netlist) : list (string * list (string * nat) * bool) :=
  match NX_Model.circuits nl with
  | [c] => map (fun d => (NX_Model.d_name d, NX_Model.d_terms d, match NX_Model.d_class d with NX_Model.CResistor => true | _ => false end)) (NX_Model.c_devices c)
  | _ => []
  end.
Example C112_case :
  option_map m_shown (m_run UT_Model.RC) = Some [("ext_1", [("A", 1); ("B", 2)], false); ("ext_2", [("A", 2); ("B", 3)], false); ("ext_1", [("A", 1); ("B", 2)], true)]%nat /\
  option_map m_shown (m_run UT_Model.CC) = Some [("ext_1", [("A", 1); ("B", 2)], false); ("ext_2", [("A", 2); ("B", 3)], false)]%nat /\
  option_map m_shown (m_run UT_Model.R) = Some [("ext_1", [("A", 1); ("B", 2)], true)]%nat.
Proof. repeat split; vm_compute; reflexivity. Qed.
