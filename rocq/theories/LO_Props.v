(** C111: far shapes of new nets change nothing between the others. *)
From Coq Require Import String ZArith Permutation Lia.
From Verif Require Import PyBase PyLib QcLra ER_Model ER_Spec ER_Proofs E2_Model E2_Spec E2_Proofs SY_Spec SY_Proofs LO_Spec LO_Proofs.
From Verif Require OV_Model OV_Spec OV_Props SF_Model SF_Props LV_Model LV_Spec LV_Props NX_Model UT_Model E2_Props PD_Model PD_Spec PD_Props.

(** the overlap table has an entry for every two layers *)
Definition overlaps_complete (overlaps : dict string (dict string Qc)) (names : list string) : Prop :=
  forall i j, (i < j < List.length names)%nat -> OV_Model.spec_for overlaps (nth j names EmptyString) (nth i names EmptyString) <> None.

Section C111.
Context {pt : Type}.
Variables (area : OV_Model.region pt -> Qc) (dbu : Qc) (substrate : string).
Variables (overlaps sideoverlaps : dict string (dict string Qc)) (substrate_caps : list string).
Variable sidewalls : dict string (Qc * Qc).
Variable cut : SF_Model.spoly -> list SF_Model.spoly -> list SF_Model.spoly.
Variable fringe_cap : Z -> Z -> Z -> Qc -> Qc -> option Qc.
Variable shield_top : Z.
Variables (t : LV_Model.tech) (metals : list string).
Notation run polygons edges shapes subshape := (run_25d area dbu substrate overlaps sideoverlaps substrate_caps sidewalls cut fringe_cap shield_top
  polygons edges t shapes subshape metals).

(** Shapes of new nets are added to a layout, beyond the halo of the edges there were and without
    overlapping the polygons there were.  If the run with them succeeds, so does the run without
    them, and the two netlists have the same parasitics between any two nets that are not new. *)
Theorem C111_others_unchanged : forall (new : string -> bool) mode shapes shapes' subshape subshape' polygons polygons' edges edges' resistance networks top nl nl2 bb r r',
  OV_Spec.measure area ->
  LV_Model.layer_regions t shapes subshape metals = Some r -> LV_Model.layer_regions t shapes' subshape' metals = Some r' -> dkeys r' = dkeys r ->
  overlaps_complete overlaps (dkeys r) ->
  (forall idx, grown_polygons new (dkeys r) substrate idx (polygons r idx) (polygons' r' idx) /\ grown_edges new (dkeys r) substrate idx (edges r idx) (edges' r' idx)) ->
  Forall (new_network new) networks ->
  map NX_Model.c_name (NX_Model.circuits nl2) = map NX_Model.c_name (NX_Model.circuits nl) ->
  forall out2, run polygons' edges' shapes' subshape' mode (option_map (fun n => n ++ networks) resistance) top nl2 bb = Some out2 ->
  exists out capl resl capl2 resl2, run polygons edges shapes subshape mode resistance top nl bb = Some out /\
    adds nl out top bb capl resl /\ adds nl2 out2 top bb capl2 resl2 /\
    forall x y v, new x = false -> new y = false -> (has capl x y v <-> has capl2 x y v) /\ (has resl x y v <-> has resl2 x y v).
Proof.
  intros new mode shapes shapes' subshape subshape' polygons polygons' edges edges' resistance networks top nl nl2 bb r r' M Er Er' Hk Hc Hcalls Hn Hnl out2. rewrite !run_is.
  assert (Len : List.length r' = List.length r) by (unfold dkeys in Hk; apply (f_equal (@List.length string)) in Hk; now rewrite !map_length in Hk).
  assert (LenK : List.length (dkeys r) = List.length r) by apply map_length.
  destruct (all_entries area dbu substrate overlaps sideoverlaps substrate_caps sidewalls cut fringe_cap shield_top polygons' edges' t shapes' subshape' metals mode) as [es'|] eqn:Ee'; [|discriminate].
  destruct (all_networks mode (option_map (fun n => n ++ networks) resistance)) as [n'|] eqn:En'; [|discriminate]. intros Out2.
  assert (He : exists es, all_entries area dbu substrate overlaps sideoverlaps substrate_caps sidewalls cut fringe_cap shield_top polygons edges t shapes subshape metals mode = Some es /\
     Permutation (filter (old_report new) (rep es)) (filter (old_report new) (rep es'))).
  { unfold all_entries in *. rewrite Er in *. rewrite Er' in Ee'. destruct (UT_Model.need_capacitance mode); [|injection Ee' as <-; exists []; split; [reflexivity|constructor]].
    rewrite Hk in Ee'. unfold overlap_entries in *.
    destruct (sidewall_fringe_entries _ _ _ _ _ _ _ _ _ edges' _ _) as [b'|] eqn:Eb'; [|discriminate]. injection Ee' as <-.
    unfold sidewall_fringe_entries in *. rewrite Len in Eb'.
    assert (G : exists b, collect (fun idx => collect (edge_entries dbu substrate overlaps sideoverlaps substrate_caps sidewalls cut fringe_cap shield_top (dkeys r) idx) (edges r idx)) (seq 0 (List.length r)) = Some b /\
       Permutation (filter (old_report new) (rep b)) (filter (old_report new) (rep b'))).
    { eapply collect_grown; [|exact Eb']. intros idx es0 I E0. eapply edges_grown; [|apply Hcalls|exact E0]. apply in_seq in I. lia. }
    destruct G as (b & Eb & Pb).
    rewrite Eb. eexists. split; [reflexivity|]. rewrite !rep_app, !filter_app. apply Permutation_app; [|exact Pb]. rewrite Len.
    assert (L : forall idx, In idx (seq 0 (List.length r)) -> (idx < List.length r)%nat) by (intros idx I; apply in_seq in I; lia). revert L.
    generalize (seq 0 (List.length r)). induction l as [|idx l IH]; intros L; [constructor|]. cbn [flat_map]. rewrite !rep_app, !filter_app. apply Permutation_app; [|apply IH; intros i I; apply L; now right].
    apply (polygons_grown new area dbu substrate overlaps (dkeys r) (OV_Spec.m_ext M)); [|apply Hcalls]. intros k Hkk. apply Hc. lia. }
  destruct He as (es & -> & Pe).
  destruct (expand_adds nl2 top es' n' bb) as [A' B']. destruct (B' out2 Out2) as (rr' & capl2 & resl2 & R' & D' & S1' & S2').
  assert (Hr : exists n rr, all_networks mode resistance = Some n /\ resistor_reports n = Some rr /\ Permutation (filter (old_report new) rr) (filter (old_report new) rr')).
  { unfold all_networks in *. destruct (UT_Model.need_resistance mode).
    - destruct resistance as [n|]; [|discriminate]. injection En' as <-. destruct (networks_grown new n networks rr' Hn R') as (rr & X & Y). eauto.
    - injection En' as <-. exists [], rr'. split; [reflexivity|]. split; [exact R'|apply Permutation_refl]. }
  destruct Hr as (n & rr & -> & R & Pr). destruct (expand_adds nl top es n bb) as [A B].
  destruct (NX_Model.expand nl top [(top, with_networks (add_caps (map op_of es)) n)] bb) as [out|] eqn:Eo.
  - destruct (B out eq_refl) as (rr0 & capl & resl & R0 & D & S1 & S2). assert (rr0 = rr) by congruence. subst rr0.
    exists out, capl, resl, capl2, resl2. split; [reflexivity|]. split; [exact D|]. split; [exact D'|]. intros x y v X Y.
    split; [eapply old_has; [exact Pe|exact S1|exact S1'|exact X|exact Y]|eapply old_has; [exact Pr|exact S2|exact S2'|exact X|exact Y]].
  - exfalso. destruct (proj1 A eq_refl) as [C|C]; [congruence|]. rewrite <- Hnl in C. assert (X := proj2 A' (or_intror C)). congruence.
Qed.
End C111.
Print Assumptions C111_others_unchanged.

(** The tables of the shipped PDKs are complete. *)
Theorem C111_shipped_tables : forall T db substrate_shape r,
  PD_Spec.shipped T -> LV_Spec.db_wf db ->
  LV_Model.layer_regions (PD_Model.tech_of T) (LV_Model.shapes_of_layer (PD_Model.tech_of T) true db) substrate_shape (PD_Model.metals_of T) = Some r ->
  overlaps_complete (PD_Model.overlaps_of T) (dkeys r).
Proof.
  intros T db sub r HT Hdb Hr i j H. destruct (PD_Props.C72_tables T db sub HT Hdb) as (r0 & so & Hr0 & _ & _ & Hov & _).
  assert (r0 = r) by congruence. subst r0.
  destruct (Hov i j _ _ (proj1 H) (nth_error_nth' (dkeys r) EmptyString (Nat.lt_trans _ _ _ (proj1 H) (proj2 H))) (nth_error_nth' (dkeys r) EmptyString (proj2 H))) as (v & Ev & _).
  rewrite Ev. discriminate.
Qed.
Print Assumptions C111_shipped_tables.

(** ** Concrete runs: the one of C86 with new nets N (poly) and M (met1) *)
Local Open Scope string_scope.
Local Open Scope list_scope.
Notation a_run overlaps polygons edges nl := (run_25d OV_Props.ov_area 1%Qc "VSUBS" overlaps E2_Props.x_side ["met1"; "poly"] E2_Props.x_sidewalls E2_Props.x_cut SF_Props.flat_fringe 3000
  polygons edges LV_Props.ex_tech E2_Props.x_shapes [] ["poly_con"; "met1_con"] UT_Model.CC None "top" nl true).
Definition a_new (s : string) : bool := eqb s "N" || eqb s "M".
Definition a_right (p : nat) : bool := Nat.leb 4 p && Nat.ltb p 6.
Notation aB := (OV_Model.Poly "B" (OV_Props.upto 4)).
Notation aM := (OV_Model.Poly "M" a_right).
Definition a_polygons (r : dict string (list LV_Model.shape)) (idx : nat) : list (OV_Model.poly nat * dict nat (list (OV_Model.poly nat))) :=
  match idx with 1%nat => [(OV_Model.Poly "N" a_right, [(2%nat, [aM; aB])]); (OV_Model.Poly "A" (OV_Props.upto 8), [(2%nat, [aM; aB])])] | _ => [] end.
Definition a_edges (r : dict string (list LV_Model.shape)) (idx : nat) : list (string * list ((Z * Z) * dict nat (list SF_Model.spoly))) :=
  match idx with 2%nat => [("M", [((0, 50)%Z, E2_Props.x_pbc)]); ("B", [((0, 100)%Z, E2_Props.x_pbc); ((100, 101)%Z, E2_Props.x_pbc); ((101, 300)%Z, [])])] | _ => [] end.
Definition a_shown (nl : NX_Model.netlist) : list (string * list (string * nat)) * list (nat * string) :=
  match NX_Model.circuits nl with [c] => (map (fun d => (NX_Model.d_name d, NX_Model.d_terms d)) (NX_Model.c_devices c), map (fun n => (NX_Model.n_id n, NX_Model.n_name n)) (NX_Model.c_nets c)) | _ => ([], []) end.
Lemma right_apart x : OV_Props.upto 4 x = true -> a_right x = true -> False.
Proof. unfold OV_Props.upto, a_right. intros A B. apply Nat.ltb_lt in A. apply andb_prop in B. destruct B as [B _]. apply Nat.leb_le in B. lia. Qed.
Example C111_case : exists r,
  LV_Model.layer_regions LV_Props.ex_tech E2_Props.x_shapes [] ["poly_con"; "met1_con"] = Some r /\ dkeys r = ["VSUBS"; "poly"; "met1"] /\
  overlaps_complete E2_Props.x_overlaps (dkeys r) /\ OV_Spec.measure OV_Props.ov_area /\
  (forall idx, grown_polygons a_new (dkeys r) "VSUBS" idx (E2_Props.x_polygons r idx) (a_polygons r idx) /\ grown_edges a_new (dkeys r) "VSUBS" idx (E2_Props.x_edges r idx) (a_edges r idx)) /\
  option_map a_shown (a_run E2_Props.x_overlaps E2_Props.x_polygons E2_Props.x_edges E2_Props.x_nl) =
    Some ([("ext_1", [("A", 1); ("B", 2)]); ("ext_2", [("A", 2); ("B", 3)])], [(1, "A"); (2, "B"); (3, "C"); (4, "FC_GND"); (5, "VSUBS")])%nat /\
  option_map a_shown (a_run E2_Props.x_overlaps a_polygons a_edges E2_Props.x_nl) =
    Some ([("ext_1", [("A", 1); ("B", 2)]); ("ext_2", [("A", 1); ("B", 6)]); ("ext_3", [("A", 2); ("B", 3)]); ("ext_4", [("A", 3); ("B", 6)]); ("ext_5", [("A", 6); ("B", 7)])],
      [(1, "A"); (2, "B"); (3, "C"); (4, "FC_GND"); (5, "VSUBS"); (6, "M"); (7, "N")])%nat.
Proof.
  assert (K : option_map (fun r => dkeys r) (LV_Model.layer_regions LV_Props.ex_tech E2_Props.x_shapes [] ["poly_con"; "met1_con"]) = Some ["VSUBS"; "poly"; "met1"]) by (vm_compute; reflexivity).
  destruct (LV_Model.layer_regions LV_Props.ex_tech E2_Props.x_shapes [] ["poly_con"; "met1_con"]) as [r|]; [|discriminate K]. injection K as K. exists r.
  split; [reflexivity|]. split; [exact K|]. rewrite K. split; [|split; [apply OV_Props.count_measure|split; [|split; vm_compute; reflexivity]]].
  - intros i j [H1 H2]. cbn [List.length] in H2. destruct j as [|[|[|j]]]; [lia| | |lia]; (destruct i as [|[|i]]; [| |lia]); try lia; discriminate.
  - intros idx. split.
    + destruct idx as [|[|idx]]; [exists [], []; repeat split; constructor| |exists [], []; repeat split; constructor].
      exists [(OV_Model.Poly "A" (OV_Props.upto 8), [(2%nat, [aM; aB])])], [(OV_Model.Poly "N" a_right, [(2%nat, [aM; aB])])].
      split; [apply perm_swap|]. split; [|constructor; [left; split; [discriminate|reflexivity]|constructor]].
      constructor; [|constructor]. split; [reflexivity|]. split; [reflexivity|]. intros k. unfold layer_of. cbn [snd dget]. destruct (eq_dec k 2%nat); [|constructor].
      apply grows_new; [reflexivity| |apply grows_old, grows_nil]. intros k' p x I. unfold layer_of in I. cbn [dget] in I.
      destruct (eq_dec k' 2%nat); [|destruct I]. destruct I as [<-|[]]. apply right_apart.
    + destruct idx as [|[|[|idx]]]; try (exists []; repeat split; constructor).
      exists [("M", [((0, 50)%Z, E2_Props.x_pbc)])]. split; [apply perm_swap|]. constructor; [left; split; [discriminate|reflexivity]|constructor].
Qed.

(** With a table without an entry for two layers it is not so: a new poly shape over the
    substrate ends the search above the substrate, and B loses its capacitor to it. *)
Definition g_overlaps : dict string (dict string Qc) := [("met1", [("VSUBS", Q2Qc 20)])].
Definition g_polygons (nb : dict nat (list (OV_Model.poly nat))) (r : dict string (list LV_Model.shape)) (idx : nat) : list (OV_Model.poly nat * dict nat (list (OV_Model.poly nat))) :=
  match idx with 0%nat => [(OV_Model.Poly "" (OV_Props.upto 8), nb)] | _ => [] end.
Notation g_old := (g_polygons [(2%nat, [aB])]).
Notation g_new := (g_polygons [(1%nat, [OV_Model.Poly "N" a_right]); (2%nat, [aB])]).
Theorem C111_missing_entry_refuted : exists out out2,
  (forall r idx, grown_polygons a_new ["VSUBS"; "poly"; "met1"] "VSUBS" idx (g_old r idx) (g_new r idx)) /\
  a_run g_overlaps g_old (fun _ _ => []) E2_Props.x_nl = Some out /\ a_run g_overlaps g_new (fun _ _ => []) E2_Props.x_nl = Some out2 /\
  a_shown out = ([("ext_1", [("A", 2); ("B", 5)])], [(1, "A"); (2, "B"); (3, "C"); (4, "FC_GND"); (5, "VSUBS")])%nat /\
  a_shown out2 = ([], [(1, "A"); (2, "B"); (3, "C"); (4, "FC_GND"); (5, "VSUBS")])%nat.
Proof.
  assert (V1 : option_map a_shown (a_run g_overlaps g_old (fun _ _ => []) E2_Props.x_nl) =
    Some ([("ext_1", [("A", 2); ("B", 5)])], [(1, "A"); (2, "B"); (3, "C"); (4, "FC_GND"); (5, "VSUBS")])%nat) by (vm_compute; reflexivity).
  assert (V2 : option_map a_shown (a_run g_overlaps g_new (fun _ _ => []) E2_Props.x_nl) = Some ([], [(1, "A"); (2, "B"); (3, "C"); (4, "FC_GND"); (5, "VSUBS")])%nat) by (vm_compute; reflexivity).
  destruct (a_run g_overlaps g_old (fun _ _ => []) E2_Props.x_nl) as [out|]; [|discriminate V1].
  destruct (a_run g_overlaps g_new (fun _ _ => []) E2_Props.x_nl) as [out2|]; [|discriminate V2]. exists out, out2.
  injection V1 as V1. injection V2 as V2. split; [|split; [reflexivity|]; split; [reflexivity|]; split; assumption].
  intros r idx. destruct idx as [|idx]; [|exists [], []; repeat split; constructor]. cbn [g_polygons].
  exists [(OV_Model.Poly "" (OV_Props.upto 8), [(1%nat, [OV_Model.Poly "N" a_right]); (2%nat, [aB])])], []. split; [apply Permutation_refl|]. split; [|constructor].
  constructor; [|constructor]. split; [reflexivity|]. split; [reflexivity|]. intros k. unfold layer_of. cbn [snd dget]. destruct (eq_dec k 1%nat) as [->|].
  - destruct (eq_dec 1%nat 2%nat); [discriminate|]. apply grows_new; [reflexivity| |apply grows_nil]. intros k' p x I. unfold layer_of in I. cbn [dget] in I.
    destruct (eq_dec k' 2%nat); [|destruct I]. destruct I as [<-|[]]. apply right_apart.
  - destruct (eq_dec k 2%nat); [apply grows_old, grows_nil|apply grows_nil].
Qed.
Print Assumptions C111_missing_entry_refuted.
