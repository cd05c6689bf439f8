(** Property theorems C14, C57, C58 (2.5D netlist expansion). *)
From Coq Require Import String Permutation.
From Verif Require Import PyBase PyLib QcLra ER_Model ER_Spec ER_Proofs ER_Props NX_Model NX_Spec NX_Proofs.
Local Open Scope Qc_scope.
Local Open Scope string_scope.

(** ** C14 *)
Theorem C14_expansion_faithful : forall nl top r bb,
  (expand nl top r bb = None <-> summarize r = None \/ ~ In top (map c_name (circuits nl))) /\
  (forall nl', expand nl top r bb = Some nl' ->
     exists sm pre c post c', summarize r = Some sm /\
       circuits nl = (pre ++ c :: post)%list /\ c_name c = top /\ ~ In top (map c_name pre) /\
       circuits nl' = (pre ++ c' :: post)%list /\ expanded c c' sm bb /\
       (** the classes of the new devices are called C and R *)
       classes nl' = (classes nl ++ [("C", CCapacitor); ("R", CResistor)])%list).
Proof.
  intros nl top r bb. unfold expand. destruct (summarize r) as [sm|]; [|split; [tauto|discriminate]].
  assert (F : forall c, exists c', expand_circuit c sm bb = Some c').
  { intros c. destruct (expand_circuit_ok c sm bb) as (c' & E & _). eauto. }
  destruct (in_dec string_dec top (map c_name (circuits nl))) as [J|J].
  - destruct (on_circuit_ok (fun c => expand_circuit c sm bb) top (circuits nl) F J) as (pre & c & post & c' & E1 & E2 & E3 & E4 & E5).
    rewrite E5. split; [split; [discriminate|intros [C|C]; [discriminate|contradiction]]|].
    intros nl' [= <-]. exists sm, pre, c, post, c'. cbn. repeat (split; [assumption || reflexivity|]).
    destruct (expand_circuit_ok c sm bb) as (c'' & Ex & X). split; [congruence|reflexivity].
  - rewrite on_circuit_none by exact J. split; [tauto|discriminate].
Qed.
Print Assumptions C14_expansion_faithful.

Definition nl1 : netlist := Netlist
  [Circuit "sub" [] []; Circuit "top" [KNet 1 "A"; KNet 2 "B"; KNet 3 "VSUBS"]
     [Device "m1" CMOS4 [("S", 1%nat)] []; Device "c1" CCapacitor [("A", 1%nat); ("B", 2%nat)] [("C", 1)]]] [].
Example C14_nontrivial : exists nl', expand nl1 "top" [("top", cell2)] false = Some nl'.
Proof.
  destruct (expand nl1 "top" [("top", cell2)] false) as [nl'|] eqn:E; [eauto|].
  apply C14_expansion_faithful in E. destruct E as [E|E]; [discriminate E|]. exfalso. apply E. cbn. auto.
Qed.

(** ** C57 *)
(** A net of the layout with a unique name that is neither FC_GND nor VSUBS is the only
    net of that name after the expansion: parasitics naming it are attached to it. *)
Theorem C57_names_resolve_to_layout_nets : forall nl top r bb nl',
  expand nl top r bb = Some nl' ->
  exists pre c post c', circuits nl = (pre ++ c :: post)%list /\ c_name c = top /\ circuits nl' = (pre ++ c' :: post)%list /\
  forall n, In n (c_nets c) -> (forall m, In m (c_nets c) -> n_name m = n_name n -> m = n) ->
    n_name n <> "FC_GND" -> n_name n <> "VSUBS" ->
    forall m, In m (c_nets c') -> n_name m = n_name n -> m = n.
Proof.
  intros nl top r bb nl' E. apply C14_expansion_faithful in E.
  destruct E as (sm & pre & c & post & c' & _ & E1 & E2 & _ & E3 & X & _). exists pre, c, post, c'.
  repeat (split; [assumption|]). intros n J U N1 N2 m Jm Em.
  destruct (x_nets X) as (g & v & extra & En & Eg & Ev & _ & S). rewrite En in Jm.
  apply in_app_iff in Jm. destruct Jm as [Jm|[->|[->|Jm]]]; [apply U; assumption|congruence|congruence|].
  apply (in_map n_name) in Jm. apply S in Jm. destruct Jm as (_ & C & _). exfalso. apply C. rewrite Em. apply in_map, J.
Qed.
Print Assumptions C57_names_resolve_to_layout_nets.
Example C57_nontrivial : exists n, In n [KNet 1 "A"; KNet 2 "B"; KNet 3 "VSUBS"] /\
  (forall m, In m [KNet 1 "A"; KNet 2 "B"; KNet 3 "VSUBS"] -> n_name m = n_name n -> m = n) /\ n_name n <> "FC_GND" /\ n_name n <> "VSUBS".
Proof.
  exists (KNet 2 "B"). split; [cbn; auto|]. split; [|split; discriminate].
  intros m [<-|[<-|[<-|[]]]]; cbn; congruence.
Qed.
(** If the layout already has a net VSUBS, a capacitor to VSUBS is attached to a second,
    newly created net of that name. *)
Definition ops_sub := [AddOverlap (OverlapCap ("m1", "A", "VSUBS", "VSUBS") 1 0 0)].
Theorem C57_existing_substrate_refuted : exists nl' c' d,
  expand nl1 "top" [("top", add_caps ops_sub)] false = Some nl' /\
  circuits nl' = [Circuit "sub" [] []; c'] /\ In d (c_devices c') /\ d_class d = CCapacitor /\
  In (KNet 3 "VSUBS") (c_nets c') /\ map snd (d_terms d) = [1; 5]%nat /\ In (KNet 5 "VSUBS") (c_nets c').
Proof.
  destruct (expand nl1 "top" [("top", add_caps ops_sub)] false) as [nl'|] eqn:E.
  - exists nl'.
    assert (X : exists c' d, circuits nl' = [Circuit "sub" [] []; c'] /\ In d (c_devices c') /\ d_class d = CCapacitor /\
       In (KNet 3 "VSUBS") (c_nets c') /\ map snd (d_terms d) = [1; 5]%nat /\ In (KNet 5 "VSUBS") (c_nets c')).
    { cbn -[Qcplus] in E. injection E as <-. cbn [circuits]. eexists _, _. split; [reflexivity|].
      split; [right; left; reflexivity|]. cbn. auto 10. }
    destruct X as (c' & d & X). exists c', d. auto.
  - apply C14_expansion_faithful in E. destruct E as [E|E]; [discriminate E|]. exfalso. apply E. cbn. auto.
Qed.
Print Assumptions C57_existing_substrate_refuted.

(** ** C58 *)
Lemma same_dget (s t : dict (string * string) Qc) : normal_table s -> normal_table t ->
  (forall x y, pair_value s x y = pair_value t x y) -> forall k, dget s k = dget t k.
Proof.
  intros N M E [x y]. destruct (pair_value_normal x y N) as (_ & A & B). destruct (pair_value_normal x y M) as (_ & A' & B').
  destruct (strlt y x) eqn:L; [rewrite B, B' by reflexivity; reflexivity|]. rewrite A, A' by reflexivity. apply E.
Qed.
Lemma summarize_normal r sm : summarize r = Some sm -> normal_summary sm.
Proof. unfold summarize. destruct (summarize_cells (dvals r)); [|discriminate]. intros [= <-]. split; apply merge_normal. Qed.
Lemma expand_circuit_same sm sm' c bb : normal_summary sm -> normal_summary sm' -> same_summary sm sm' ->
  case_distinct (capacitances sm) -> case_distinct (resistances sm) -> expand_circuit c sm bb = expand_circuit c sm' bb.
Proof.
  intros N M S C1 C2. unfold expand_circuit.
  assert (Q : forall d d', normal_table d -> normal_table d' -> (forall x y, pair_value d x y = pair_value d' x y) ->
     case_distinct d -> py_sorted item_lt d = py_sorted item_lt d').
  { intros d d' Nd Nd' Sd CD. apply sort_items_unique; [|apply Nd|exact CD].
    apply dict_perm; [apply Nd|apply Nd'|]. apply same_dget; assumption. }
  rewrite (Q (capacitances sm) (capacitances sm')), (Q (resistances sm) (resistances sm')); try apply N; try apply M; auto;
  intros; apply S.
Qed.
(** The whole expanded netlist, including numbering, depends only on the per-pair values,
    not on the order of extraction, when no two net pairs agree up to case. *)
Theorem C58_expansion_deterministic : forall nl top bb r r' sm sm',
  summarize r = Some sm -> summarize r' = Some sm' -> same_summary sm sm' ->
  case_distinct (capacitances sm) -> case_distinct (resistances sm) ->
  expand nl top r bb = expand nl top r' bb.
Proof.
  intros nl top bb r r' sm sm' E E' S C1 C2. unfold expand. rewrite E, E'.
  assert (Q : forall c, expand_circuit c sm bb = expand_circuit c sm' bb).
  { intros c. apply expand_circuit_same; auto; eapply summarize_normal; eauto. }
  assert (O : on_circuit (fun c => expand_circuit c sm bb) top (circuits nl) = on_circuit (fun c => expand_circuit c sm' bb) top (circuits nl)).
  { induction (circuits nl) as [|c l IH]; [reflexivity|]. cbn [on_circuit]. rewrite Q, IH. reflexivity. }
  rewrite O. reflexivity.
Qed.
Print Assumptions C58_expansion_deterministic.
Corollary C58_any_extraction_order : forall nl top bb cell ops ops' sm,
  Permutation ops ops' -> summarize [(cell, add_caps ops)] = Some sm ->
  case_distinct (capacitances sm) -> expand nl top [(cell, add_caps ops)] bb = expand nl top [(cell, add_caps ops')] bb.
Proof.
  intros nl top bb cell ops ops' sm P E CD.
  destruct (C10_summary_total ops) as [s1 S1]. destruct (C10_summary_total ops') as [s2 S2].
  assert (E2 : summarize [(cell, add_caps ops')] = Some (merged [s2])) by (unfold summarize; cbn; rewrite S2; reflexivity).
  assert (E1 : summarize [(cell, add_caps ops)] = Some (merged [s1])) by (unfold summarize; cbn; rewrite S1; reflexivity).
  assert (SM : sm = merged [s1]) by congruence.
  assert (W : forall o, with_networks (add_caps o) [] = add_caps o).
  { intros o. unfold with_networks. pose proof (add_caps_r o new_cell) as R. unfold add_caps in *. cbn in R.
    destruct (fold_left add_step o new_cell); cbn in *. subst. reflexivity. }
  assert (M : forall s, cell_summarize (add_caps ops) = Some s \/ cell_summarize (add_caps ops') = Some s -> merged [s] = s).
  { intros s [Hs|Hs]; apply C12_merge_laws; eapply cell_normal; exact Hs. }
  rewrite !M in * by auto.
  assert (RN : forall o s, cell_summarize (add_caps o) = Some s -> forall x y, pair_value (resistances s) x y = None).
  { intros o s Hs x y. destruct (cell_resistances _ Hs) as (r & R & _ & V). unfold add_caps in R. rewrite add_caps_r in R.
    injection R as <-. apply V. }
  eapply C58_expansion_deterministic; [exact E1|exact E2| | |].
  - intros x y. split; [|rewrite (RN ops s1), (RN ops' s2) by assumption; reflexivity].
    assert (F2 : Forall2 (fun o o' => o' = o \/ o' = swap_op o) ops' ops') by (clear; induction ops'; constructor; auto).
    apply (C11_order_and_orientation ops ops' ops' s1 s2 [] []); auto; rewrite W; assumption.
  - subst sm. exact CD.
  - intros k k' J. exfalso. destruct k as [a b]. apply dkeys_dget in J. destruct J as [v J].
    pose proof (RN ops s1 S1 a b) as Z. unfold pair_value in Z. rewrite J in Z. discriminate.
Qed.
Print Assumptions C58_any_extraction_order.
Example C58_nontrivial : exists sm, summarize [("top", add_caps ops1)] = Some sm /\ dkeys (capacitances sm) = [("A", "B"); ("B", "C")] /\
  case_distinct (capacitances sm).
Proof.
  destruct (C10_summary_total ops1) as [s S]. 
  destruct (summarize [("top", add_caps ops1)]) as [sm|] eqn:E; [|unfold summarize in E; cbn [dvals map summarize_cells snd] in E; rewrite S in E; discriminate].
  exists sm. split; [reflexivity|].
  assert (K : dkeys (capacitances sm) = [("A", "B"); ("B", "C")]).
  { cbn -[Qcplus] in E. injection E as <-. reflexivity. }
  split; [exact K|]. intros k k'. rewrite K. intros [<-|[<-|[]]] [<-|[<-|[]]] H1 H2; try reflexivity; vm_compute in H1; discriminate.
Qed.
