(** C38-C40, C62-C65: technology tables, layer stack lookup, and the FasterCap input builder. *)
From Coq Require Import String QArith.Qround Lqa Lia.
From Verif Require Import PyBase QcLra PyLib SW_Model SW_Spec TI_Model TI_Spec TI_Tables TI_Proofs.
Local Open Scope string_scope.
Local Open Scope list_scope.

(** ** C39 *)
Theorem C39_overlap_table :
  forall (subs : list subcap) (ovs : list ovcap),
  (forall top bot v, at2 (overlap_table subs ovs) top bot = Some v <-> overlap_entry subs ovs top bot v) /\
  (forall top, dget (overlap_table subs ovs) top = None <->
     (forall o, In o ovs -> oc_top o <> top) /\ (forall s, In s subs -> sc_layer s <> top)).
Proof.
  intros subs ovs. split; [apply overlap_at2|]. intros top. pose proof (overlap_key subs ovs top) as K. split.
  - intros E. split; [intros o J T | intros s J T]; apply (proj2 K); eauto.
  - intros [A B]. destruct (dget (overlap_table subs ovs) top) eqn:E; [|reflexivity]. exfalso.
    assert (X : Some d <> None) by discriminate. apply K in X. destruct X as [(o & J & T)|(s & J & T)]; [apply (A o J T) | apply (B s J T)].
Qed.
Print Assumptions C39_overlap_table.

(** ** C40 *)
Theorem C40_side_overlap_table :
  forall (subs : list subcap) (sos : list socap),
  (forall x, In x sos -> exists s, In s subs /\ sc_layer s = so_in x) ->
  exists d, side_overlap_table subs sos = Some d /\
    forall i o v, at2 d i o = Some v <-> side_overlap_entry subs sos i o v.
Proof. intros subs sos A. eexists. split; [apply side_ok, A | apply side_at2]. Qed.
Print Assumptions C40_side_overlap_table.
(** a side overlap for a layer without a substrate entry makes the whole table unavailable *)
Theorem C40_missing_substrate_fails :
  forall (subs : list subcap) (sos : list socap) x, In x sos -> (forall s, In s subs -> sc_layer s <> so_in x) ->
  side_overlap_table subs sos = None.
Proof. intros subs sos x J N. exact (side_fails subs sos x J N). Qed.
Print Assumptions C40_missing_substrate_fails.

Definition ex_subs := [SubCap "m1" (Q2Qc 3) (Q2Qc 4); SubCap "m2" (Q2Qc 5) (Q2Qc 6); SubCap "m1" (Q2Qc 7) (Q2Qc 8)].
Definition ex_ovs := [OvCap "m2" "m1" (Q2Qc 11); OvCap "m3" "m2" (Q2Qc 12); OvCap "m2" "m1" (Q2Qc 13); OvCap "m2" "VSUBS" (Q2Qc 14)].
Definition ex_sos := [SoCap "m1" "m2" (Q2Qc 21); SoCap "m1" "m2" (Q2Qc 22); SoCap "m2" "m1" (Q2Qc 23)].
Definition oval (o : option ovcap) : Qc := match o with Some v => oc_value v | None => 0%Qc end.
Definition sval (o : option (table socap)) i j : Qc := match o with Some d => match at2 d i j with Some v => so_value v | None => 0%Qc end | None => 0%Qc end.
Example C39_example :
  forallb (fun e => qeqb (oval (at2 (overlap_table ex_subs ex_ovs) (fst (fst e)) (snd (fst e)))) (snd e))
    [(("m2", "m1"), Q2Qc 13); (("m2", "VSUBS"), Q2Qc 14); (("m1", "VSUBS"), Q2Qc 7); (("m3", "m2"), Q2Qc 12); (("m3", "VSUBS"), 0%Qc)] = true.
Proof. vm_compute. reflexivity. Qed.
Example C40_example :
  forallb (fun e => qeqb (sval (side_overlap_table ex_subs ex_sos) (fst (fst e)) (snd (fst e))) (snd e))
    [(("m1", "m2"), Q2Qc 22); (("m1", "VSUBS"), Q2Qc 8); (("m2", "VSUBS"), Q2Qc 6)] = true.
Proof. vm_compute. reflexivity. Qed.
Example C40_hypothesis : forall x, In x ex_sos -> exists s, In s ex_subs /\ sc_layer s = so_in x.
Proof.
  intros x [<-|[<-|[<-|[]]]]; [exists (SubCap "m1" (Q2Qc 3) (Q2Qc 4)) | exists (SubCap "m1" (Q2Qc 3) (Q2Qc 4)) | exists (SubCap "m2" (Q2Qc 5) (Q2Qc 6))];
    (split; [cbn; auto | reflexivity]).
Qed.
Example C40_missing_example :
  side_overlap_table ex_subs (SoCap "poly" "m1" (Q2Qc 1) :: ex_sos) = None /\ overlap_table ex_subs [OvCap "poly" "m1" (Q2Qc 1)] <> [].
Proof.
  split.
  - apply (C40_missing_substrate_fails _ _ (SoCap "poly" "m1" (Q2Qc 1))); [left; reflexivity|]. cbn. intros s [<-|[<-|[<-|[]]]]; discriminate.
  - discriminate.
Qed.

(** ** C62 *)
(** the layer directly above a metal: the first simple dielectric before the next metal, and the distance of the two metals *)
Theorem C62_dielectric_below_next_metal :
  forall (included : string -> bool) (pre mid post : list slayer) (m next : slayer),
  (forall l, In l (pre ++ mid ++ [next]) -> s_name l <> s_name m) ->
  (forall l, In l mid -> is_metal l = false) -> is_metal next = true ->
  simple_dielectric_above_metal (pre ++ m :: mid ++ next :: post) included (s_name m) =
  match find is_simple mid with
  | None => (None, (metal_z next - metal_z m)%Qc)
  | Some d => if included (s_name d) then (Some d, (metal_z next - metal_z m)%Qc) else (None, 0%Qc)
  end.
Proof.
  intros included pre mid post m next N M X. unfold simple_dielectric_above_metal.
  rewrite sdam_skip by (intros l J; apply N, in_or_app; left; exact J). cbn [sdam]. rewrite eqb_refl.
  rewrite sdam_mid.
  2: { intros l J. split; [apply N, in_or_app; right; apply in_or_app; left; exact J | apply M, J]. }
  assert (Nn : eqb (s_name next) (s_name m) = false).
  { apply eqb_false. apply N. apply in_or_app; right; apply in_or_app; right; left; reflexivity. }
  assert (S : is_simple next = false) by (unfold is_simple, is_metal in *; destruct (s_type next); congruence).
  destruct (find is_simple mid) as [d|]; [destruct (included (s_name d)); [|reflexivity]|]; cbn [sdam]; rewrite Nn, ?S, X; reflexivity.
Qed.
Print Assumptions C62_dielectric_below_next_metal.
(** above the topmost metal the height is 5 *)
Theorem C62_dielectric_above_top_metal :
  forall (included : string -> bool) (pre mid : list slayer) (m : slayer),
  (forall l, In l (pre ++ mid) -> s_name l <> s_name m) -> (forall l, In l mid -> is_metal l = false) ->
  simple_dielectric_above_metal (pre ++ m :: mid) included (s_name m) =
  match find is_simple mid with
  | None => (None, Q2Qc 5)
  | Some d => if included (s_name d) then (Some d, Q2Qc 5) else (None, 0%Qc)
  end.
Proof.
  intros included pre mid m N M. unfold simple_dielectric_above_metal.
  rewrite sdam_skip by (intros l J; apply N, in_or_app; left; exact J). cbn [sdam]. rewrite eqb_refl.
  rewrite <- (app_nil_r mid) at 1. rewrite sdam_mid; [reflexivity|].
  intros l J. split; [apply N, in_or_app; right; exact J | apply M, J].
Qed.
Print Assumptions C62_dielectric_above_top_metal.

(** ** C38 *)
Lemma all_dielectrics_fuel {face} {EF : EqDec face} stack included dbu ls bbox sized et fuel layers :
  (forall l, In l layers -> metal_dielectrics (face := face) stack included dbu ls bbox sized et fuel l <> BFuel) ->
  all_dielectrics stack included dbu ls bbox sized et fuel layers <> BFuel.
Proof.
  induction layers as [|l layers IH]; intros N; cbn [all_dielectrics]; [discriminate|].
  pose proof (N l (or_introl eq_refl)) as A. destruct (metal_dielectrics _ _ _ _ _ _ _ _ l); try congruence.
  specialize (IH (fun x J => N x (or_intror J))). destruct (all_dielectrics _ _ _ _ _ _ _ _ layers); congruence.
Qed.
(** With acyclic references building the input always ends, after at most one step per stack layer for each metal. *)
Theorem C38_terminates :
  forall (face : Type) (EF : EqDec face) (stack : list slayer) (included : string -> bool) (dbu : Qc)
    (nets : list (string * (string -> option (list face)))) (layer_shapes : string -> option (list face))
    (bbox : list face) (sized : Z -> list face -> list face) (empty_truthy : bool),
  acyclic stack included ->
  build_calls stack included dbu nets layer_shapes bbox sized empty_truthy (S (List.length stack)) <> BFuel.
Proof.
  intros face EF stack included dbu nets ls bbox sized et [rank K]. unfold build_calls.
  destruct (find _ stack) as [fox|]; [|discriminate]. destruct (find _ stack) as [[sn [sh st| | | | | | |]]|]; try discriminate.
  destruct (find is_metal stack) as [gate|]; [|discriminate].
  assert (A : all_dielectrics stack included dbu ls bbox sized et (S (List.length stack)) stack <> BFuel).
  { apply all_dielectrics_fuel. intros l _. unfold metal_dielectrics. destruct (s_type l) as [| | | | | | |z t c]; try discriminate.
    destruct (ls (s_name l)) as [shapes|].
    - destruct (negb (truthy et shapes)); [destruct (simple_calls _ _ _ _ _ _ _); discriminate|].
      pose proof (sidewalls_terminates stack included dbu bbox sized rank K (S (List.length stack)) z t (s_name l) shapes 0%Qc None []) as T.
      pose proof (ahead_le stack rank (s_name l)) as L. specialize (T ltac:(lia)).
      destruct (sidewalls _ _ _ _ _ _ _ _ _ _ _ _ _); try congruence; try discriminate. destruct (simple_calls _ _ _ _ _ _ _); discriminate.
    - destruct (simple_calls _ _ _ _ _ _ _); discriminate. }
  destruct (all_dielectrics _ _ _ _ _ _ _ _ stack); congruence.
Qed.
Print Assumptions C38_terminates.

(** If no two layers of the stack share a name there is nothing else to require: building always ends. *)
Theorem C38_terminates_distinct_names :
  forall (face : Type) (EF : EqDec face) (stack : list slayer) (included : string -> bool) (dbu : Qc)
    (nets : list (string * (string -> option (list face)))) (layer_shapes : string -> option (list face))
    (bbox : list face) (sized : Z -> list face -> list face) (empty_truthy : bool),
  NoDup (map s_name stack) ->
  build_calls stack included dbu nets layer_shapes bbox sized empty_truthy (S (List.length stack)) <> BFuel.
Proof.
  intros face EF stack included dbu nets ls bbox sized et N. unfold build_calls.
  destruct (find _ stack) as [fox|]; [|discriminate]. destruct (find _ stack) as [[sn [sh st| | | | | | |]]|]; try discriminate.
  destruct (find is_metal stack) as [gate|]; [|discriminate].
  assert (A : all_dielectrics stack included dbu ls bbox sized et (S (List.length stack)) stack <> BFuel).
  { apply all_dielectrics_fuel. intros l J. unfold metal_dielectrics. destruct (s_type l) as [| | | | | | |z t c] eqn:T; try discriminate.
    destruct (ls (s_name l)) as [shapes|].
    - destruct (negb (truthy et shapes)); [destruct (simple_calls _ _ _ _ _ _ _); discriminate|].
      assert (Rl : reference_of l = None) by (unfold reference_of; rewrite T; reflexivity).
      pose proof (sidewalls_terminates_distinct stack included dbu bbox sized l N J Rl (S (List.length stack)) [] z t shapes 0%Qc None []
        ltac:(intros ? []) (NoDup_nil _) I ltac:(cbn; lia)) as X. cbn [hd] in X.
      destruct (sidewalls _ _ _ _ _ _ _ _ _ _ _ _ _); try congruence; try discriminate. destruct (simple_calls _ _ _ _ _ _ _); discriminate.
    - destruct (simple_calls _ _ _ _ _ _ _); discriminate. }
  destruct (all_dielectrics _ _ _ _ _ _ _ _ stack); congruence.
Qed.
Print Assumptions C38_terminates_distinct_names.

(** A metal with shapes whose chain runs into a cycle: the loop never comes to an end, however long it runs. *)
Theorem C38_cycle_never_ends :
  forall (face : Type) (EF : EqDec face) (stack : list slayer) (included : string -> bool) (dbu : Qc)
    (layer_shapes : string -> option (list face)) (bbox : list face) (sized : Z -> list face -> list face) (empty_truthy : bool)
    (m : slayer) (z t : Qc) (c : option contact) (first : face) (rest : list face) (n : string),
  s_type m = Metal z t c -> layer_shapes (s_name m) = Some (first :: rest) ->
  (n = s_name m \/ reaches stack included (s_name m) n) -> reaches stack included n n ->
  (forall n a b, refers stack included n a -> refers stack included n b -> a = b) -> NoDup stack ->
  forall fuel, metal_dielectrics stack included dbu layer_shapes bbox sized empty_truthy fuel m = BFuel.
Proof.
  intros face EF stack included dbu ls bbox sized et m z t c p rest n T S R C U ND fuel.
  unfold metal_dielectrics. rewrite T, S. cbn [truthy negb].
  destruct (sidewalls _ _ _ _ _ fuel _ _ _ _ _ _ _) as [cs r h nm| |] eqn:E; [exfalso|exfalso|reflexivity].
  - apply sidewalls_done in E. destruct E as (chain & Uc & _). destruct R as [->|R].
    + exact (no_cycle _ _ _ _ Uc C).
    + destruct (uchain_reaches _ _ _ _ R _ Uc) as (ms & Um & _). exact (no_cycle _ _ _ _ Um C).
  - revert E. generalize (s_name m) (p :: rest) 0%Qc (@None (list face * Qc)) (@nil (@call face)). clear -U ND.
    induction fuel as [|fuel IH]; intros n r h nm acc E; [discriminate|]. cbn [sidewalls] in E.
    destruct (sidewall_lookup stack included n) as [|l|] eqn:F; [discriminate| |].
    + apply lookup_found in F. destruct F as [R _].
      destruct (found_type _ _ _ _ R) as [(k & a & w & f & T) | (k & o & x & s & f & T)]; rewrite T in E; [|destruct (qltb 0 x)]; exact (IH _ _ _ _ _ E).
    + unfold sidewall_lookup in F. destruct (filter (references n) (filtered_dielectrics stack included)) as [|a [|b q]] eqn:G; try discriminate.
      assert (D : NoDup (a :: b :: q)) by (rewrite <- G; apply NoDup_filter, NoDup_filter, ND).
      inversion D as [|? ? Na _]; subst. apply Na. left. symmetry.
      apply (U n); apply refers_in; rewrite G; [left; reflexivity | right; left; reflexivity].
Qed.
Print Assumptions C38_cycle_never_ends.

(** What is added for a metal: the links of its chain, in order, then at most two pieces of the simple dielectric. *)
Theorem C38_chain_in_order :
  forall (face : Type) (EF : EqDec face) (stack : list slayer) (included : string -> bool) (dbu : Qc)
    (layer_shapes : string -> option (list face)) (bbox : list face) (sized : Z -> list face -> list face) (empty_truthy : bool)
    (m : slayer) (z t : Qc) (c : option contact) (first : face) (rest : list face) (fuel : nat) (cs : list (@call face)),
  s_type m = Metal z t c -> layer_shapes (s_name m) = Some (first :: rest) ->
  metal_dielectrics stack included dbu layer_shapes bbox sized empty_truthy fuel m = BCalls cs ->
  exists (ls : list slayer) (simple : list (@call face)),
    chain stack included (s_name m) ls /\
    cs = flat_map (link_calls sized dbu bbox (first :: rest) z t ls) (seq 0 (List.length ls)) ++ simple /\
    (List.length simple <= 2)%nat /\
    forall x, In x simple -> exists d h r z0 h0, simple_dielectric_above_metal stack included (s_name m) = (Some d, h) /\ x = AddDielectric (s_name d) r z0 h0.
Proof.
  intros face EF stack included dbu ls bbox sized et m z t c p rest fuel cs T S E.
  unfold metal_dielectrics in E. rewrite T, S in E. cbn [truthy negb] in E.
  destruct (sidewalls _ _ _ _ _ fuel _ _ _ _ _ _ _) as [cs1 r h nm| |] eqn:F; try discriminate.
  apply sidewalls_done in F. destruct F as (chain & Uc & -> & -> & -> & ->).
  destruct (simple_calls _ _ _ _ _ _ _) as [cs2|] eqn:G; [|discriminate]. injection E as <-.
  exists chain, cs2. split; [apply uchain_chain, Uc|]. split; [rewrite <- walk_spec; reflexivity|].
  unfold simple_calls in G. destruct (simple_dielectric_above_metal stack included (s_name m)) as [[d|] hh] eqn:D.
  - destruct (negb (truthy et _)).
    + destruct (last_flat _ _ _ _ _ _) as [[nr nh]|]; [destruct (truthy et nr)|]; injection G as <-;
        (split; [cbn; lia | intros x [<-|[]]; unfold diel; eauto 10]).
    + destruct (qleb 0 _); [|discriminate].
      destruct (last_flat _ _ _ _ _ _) as [[nr nh]|]; [destruct (truthy et nr)|]; injection G as <-;
        (split; [cbn; lia | intros x [<-|[<-|[]]]; unfold diel; eauto 10]).
  - injection G as <-. split; [cbn; lia | intros x []].
Qed.
Print Assumptions C38_chain_in_order.

(** If two dielectrics refer to the same layer of the chain, no model is produced. *)
Theorem C38_ambiguous_rejected :
  forall (face : Type) (EF : EqDec face) (stack : list slayer) (included : string -> bool) (dbu : Qc)
    (layer_shapes : string -> option (list face)) (bbox : list face) (sized : Z -> list face -> list face) (empty_truthy : bool)
    (m a b : slayer) (z t : Qc) (c : option contact) (first : face) (rest : list face) (n : string),
  s_type m = Metal z t c -> layer_shapes (s_name m) = Some (first :: rest) ->
  (n = s_name m \/ reaches stack included (s_name m) n) -> refers stack included n a -> refers stack included n b -> a <> b ->
  forall fuel cs, metal_dielectrics stack included dbu layer_shapes bbox sized empty_truthy fuel m <> BCalls cs.
Proof.
  intros face EF stack included dbu ls bbox sized et m a b z t c p rest n T S R A B AB fuel cs E.
  unfold metal_dielectrics in E. rewrite T, S in E. cbn [truthy negb] in E.
  destruct (sidewalls _ _ _ _ _ fuel _ _ _ _ _ _ _) as [cs1 r h nm| |] eqn:F; try discriminate. clear E.
  apply sidewalls_done in F. destruct F as (chain & U & _).
  assert (X : exists ms, uchain stack included n ms).
  { destruct R as [->|R]; [exists chain; exact U|]. destruct (uchain_reaches _ _ _ _ R _ U) as (ms & Um & _). exists ms. exact Um. }
  destruct X as [ms X]. inversion X as [? L | ? l ? L _]; subst; [exact (lookup_none _ _ _ L _ A)|].
  apply lookup_found in L. destruct L as [_ L]. apply AB. rewrite (L _ A), (L _ B). reflexivity.
Qed.
Print Assumptions C38_ambiguous_rejected.

(** later links lie around and above earlier ones *)
Theorem C38_links_nested :
  forall (face : Type) (sized : Z -> list face -> list face) (dbu : Qc) (shapes : list face) (t : Qc) (ls : list slayer) (i j : nat),
  (forall d r, (0 <= d)%Z -> incl r (sized d r)) -> (0 < dbu)%Qc -> (0 <= t)%Qc -> (forall l, In l ls -> nonneg_layer l) -> (i <= j)%nat ->
  incl shapes (grown sized dbu shapes (firstn i ls)) /\
  incl (grown sized dbu shapes (firstn i ls)) (grown sized dbu shapes (firstn j ls)) /\
  (risen t (firstn i ls) <= risen t (firstn j ls))%Qc.
Proof.
  intros face sized dbu shapes t ls i j Sx Dp T N L. split; [|apply (prefix_grows (fun _ => true)); assumption].
  apply (grown_incl (fun _ => true)); try assumption. intros l J. apply N. eapply firstn_In, J.
Qed.
Print Assumptions C38_links_nested.

(** ** C63 *)
Lemma build_declared {face} dbu (cs : list (@call face)) : forall b,
  (forall m r z h, In (AddDielectric m r z h) cs -> In m (b_materials b)) -> fold_left (do_call dbu) cs (Some b) <> None.
Proof.
  induction cs as [|c cs IH]; intros b N; cbn [fold_left]; [discriminate|]. destruct c as [m|n r z h|m r z h]; cbn [do_call].
  - apply IH. intros m' r z h J. unfold add_material. cbn. destruct (existsb _ _); [|apply in_or_app; left]; eapply N; right; exact J.
  - apply IH. intros m' r' z' h' J. cbn. eapply N; right; exact J.
  - unfold add_dielectric. assert (X : existsb (eqb m) (b_materials b) = true).
    { apply existsb_exists. exists m. split; [eapply N; left; reflexivity | apply eqb_refl]. }
    rewrite X. apply IH. intros m' r' z' h' J. cbn. eapply N; right; exact J.
Qed.
Lemma materials_added {face} dbu ms : forall b, exists b', fold_left (do_call (face := face) dbu) (map AddMaterial ms) (Some b) = Some b' /\
  (forall m, In m ms \/ In m (b_materials b) -> In m (b_materials b')).
Proof.
  induction ms as [|m ms IH]; intros b; cbn [map fold_left do_call]; [exists b; split; [reflexivity | intros m [[]|J]; exact J]|].
  destruct (IH (add_material b m)) as (b' & E & A). exists b'. split; [exact E|]. intros x [[->|J]|J]; apply A; auto; right; unfold add_material; cbn.
  - destruct (existsb (eqb x) (b_materials b)) eqn:X; [|apply in_or_app; right; left; reflexivity].
    apply existsb_exists in X. destruct X as (y & J & X). apply eqb_eq in X. subst. exact J.
  - destruct (existsb _ _); [exact J | apply in_or_app; left; exact J].
Qed.
Lemma sdam_named stack included name : forall ls found diel0 d h, (forall l, In l ls -> In l stack) ->
  (forall x, diel0 = Some x -> In (s_name x) (dielectric_names stack included)) ->
  sdam included name found diel0 ls = (Some d, h) -> In (s_name d) (dielectric_names stack included).
Proof.
  induction ls as [|l ls IH]; intros found diel0 d h I D E; cbn [sdam] in E; [injection E as -> _; auto|].
  assert (I' : forall x, In x ls -> In x stack) by (intros x J; apply I; right; exact J).
  destruct (eqb (s_name l) name); [exact (IH _ _ _ _ I' D E)|]. destruct found as [f|]; [|exact (IH _ _ _ _ I' D E)].
  destruct (match diel0 with None => is_simple l | Some _ => false end) eqn:S.
  - destruct (included (s_name l)) eqn:Inc; [|discriminate]. apply (IH _ _ _ _ I') in E; [exact E|]. intros x [= <-].
    destruct diel0; [discriminate|]. apply by_key_keys. exists l. split; [|reflexivity]. apply in_filtered.
    split; [apply I; left; reflexivity|]. split; [|exact Inc]. unfold is_simple in S. unfold is_dielectric. destruct (s_type l); congruence.
  - destruct (is_metal l); [injection E as -> _; auto | exact (IH _ _ _ _ I' D E)].
Qed.
Lemma walk_named {face} {EF : EqDec face} stack included dbu bbox sized z t m r0 z0 h0 : forall ls n r h,
  uchain stack included n ls -> In (AddDielectric m r0 z0 h0) (walk (face := face) dbu bbox sized r z t h ls) ->
  In m (dielectric_names stack included).
Proof.
  induction ls as [|l ls IH]; intros n r h U J; [destruct J|]. inversion U as [|? ? ? F U']; subst.
  apply lookup_found in F. destruct F as [R _]. apply refers_named in R. cbn [walk] in J. apply in_app_or in J. destruct J as [J|J].
  - destruct J as [J|J]; [injection J as <- _ _ _; exact R|]. destruct (flat_part l); [|destruct J].
    destruct J as [J|[]]. injection J as <- _ _ _. exact R.
  - exact (IH _ _ _ U' J).
Qed.
Lemma metal_named {face} {EF : EqDec face} stack included dbu ls bbox sized et fuel l cs m r z h :
  metal_dielectrics (face := face) stack included dbu ls bbox sized et fuel l = BCalls cs ->
  In (AddDielectric m r z h) cs -> In m (dielectric_names stack included).
Proof.
  intros E J.
  assert (SC : forall sw nm cs2, simple_calls stack included bbox et l sw nm = Some cs2 -> In (AddDielectric m r z h) cs2 -> In m (dielectric_names stack included)).
  { intros sw nm cs2 G J2. unfold simple_calls in G. destruct (simple_dielectric_above_metal stack included (s_name l)) as [[d|] hh] eqn:D.
    - apply (sdam_named stack included) in D; [|auto|discriminate].
      destruct sw as [[sr sh]|]; [destruct (negb (truthy et sr)); [|destruct (qleb 0 sh); [|discriminate]]|];
        (destruct nm as [[nr nh]|]; [destruct (truthy et nr)|]); injection G as <-; unfold diel in J2; cbn in J2;
        repeat (destruct J2 as [J2|J2]; [injection J2 as <- _ _ _; exact D|]); destruct J2.
    - injection G as <-. destruct J2. }
  unfold metal_dielectrics in E. destruct (s_type l) as [| | | | | | |mz mt c]; try (injection E as <-; destruct J).
  destruct (ls (s_name l)) as [shapes|].
  - destruct (negb (truthy et shapes)).
    + destruct (simple_calls _ _ _ _ _ _ _) as [cs2|] eqn:G; [|discriminate]. injection E as <-. exact (SC _ _ _ G J).
    + destruct (sidewalls _ _ _ _ _ fuel _ _ _ _ _ _ _) as [cs1 r1 h1 nm1| |] eqn:F; try discriminate.
      destruct (simple_calls _ _ _ _ _ _ _) as [cs2|] eqn:G; [|discriminate]. injection E as <-. apply in_app_or in J.
      destruct J as [J|J]; [|exact (SC _ _ _ G J)]. apply sidewalls_done in F. destruct F as (chain & U & -> & _). exact (walk_named _ _ _ _ _ _ _ _ _ _ _ _ _ _ _ U J).
  - destruct (simple_calls _ _ _ _ _ _ _) as [cs2|] eqn:G; [|discriminate]. injection E as <-. exact (SC _ _ _ G J).
Qed.
Lemma all_named {face} {EF : EqDec face} stack included dbu ls bbox sized et fuel m r z h : forall layers cs,
  all_dielectrics (face := face) stack included dbu ls bbox sized et fuel layers = BCalls cs ->
  In (AddDielectric m r z h) cs -> In m (dielectric_names stack included).
Proof.
  induction layers as [|l layers IH]; intros cs E J; cbn [all_dielectrics] in E; [injection E as <-; destruct J|].
  destruct (metal_dielectrics _ _ _ _ _ _ _ _ l) as [a| |] eqn:F; try discriminate.
  destruct (all_dielectrics _ _ _ _ _ _ _ _ layers) as [b| |] eqn:G; try discriminate. injection E as <-.
  apply in_app_or in J. destruct J as [J|J]; [exact (metal_named _ _ _ _ _ _ _ _ _ _ _ _ _ _ F J) | exact (IH _ eq_refl J)].
Qed.
(** The calls made on the model builder are always accepted: every dielectric added was declared as a material before. *)
Theorem C63_materials_declared :
  forall (face : Type) (EF : EqDec face) (stack : list slayer) (included : string -> bool) (dbu : Qc)
    (nets : list (string * (string -> option (list face)))) (layer_shapes : string -> option (list face))
    (bbox : list face) (sized : Z -> list face -> list face) (empty_truthy : bool) (fuel : nat) (cs : list (@call face)),
  build_calls stack included dbu nets layer_shapes bbox sized empty_truthy fuel = BCalls cs -> SW_Model.build dbu cs <> None.
Proof.
  intros face EF stack included dbu nets ls bbox sized et fuel cs E. unfold build_calls in E.
  destruct (find _ stack) as [fox|]; [|discriminate]. destruct (find _ stack) as [[sn [sh st| | | | | | |]]|]; try discriminate.
  destruct (find is_metal stack) as [gate|]; [|discriminate].
  destruct (all_dielectrics _ _ _ _ _ _ _ _ stack) as [ds| |] eqn:A; try discriminate. injection E as <-.
  unfold SW_Model.build. rewrite app_comm_cons. change (AddMaterial (s_name fox) :: map AddMaterial (dielectric_names stack included))
    with (map (@AddMaterial face) (s_name fox :: dielectric_names stack included)).
  rewrite fold_left_app. destruct (materials_added (face := face) dbu (s_name fox :: dielectric_names stack included) builder0) as (b & Eb & Hb).
  rewrite Eb. apply build_declared. intros m r z h J. apply Hb. left. apply in_app_or in J. destruct J as [J|J].
  - exfalso. apply in_flat_map in J. destruct J as (n & _ & J). unfold net_calls in J. apply in_app_or in J.
    assert (CC : forall nm s z1 h1, ~ In (AddDielectric m r z h) (cond_call (face := face) nm s z1 h1)).
    { intros nm s z1 h1. unfold cond_call. destruct s as [[|x q]|]; intros X; cbn in X; intuition discriminate. }
    destruct J as [J|J]; apply in_flat_map in J; destruct J as (l & _ & J).
    + unfold metal_calls in J. destruct (s_type l) as [| | | | | | |z1 t1 [c|]]; try destruct J; apply in_app_or in J; destruct J as [J|J]; try (apply CC in J; exact J). destruct J.
    + unfold diffusion_calls in J. destruct (s_type l) as [| |c| | | | |]; try destruct J. apply in_app_or in J. destruct J as [J|J]; apply CC in J; exact J.
  - destruct J as [J|[J|J]]; [discriminate | injection J as <- _ _ _; left; reflexivity | right; exact (all_named _ _ _ _ _ _ _ _ _ _ _ _ _ _ A J)].
Qed.
Print Assumptions C63_materials_declared.

(** ** C64 *)
(** Between the bottom of a metal and the top of the simple dielectric above it, no point of the enlarged bounding box is
    left without a dielectric. *)
Theorem C64_no_gap :
  forall (face : Type) (EF : EqDec face) (stack : list slayer) (included : string -> bool) (dbu : Qc)
    (layer_shapes : string -> option (list face)) (bbox : list face) (sized : Z -> list face -> list face) (empty_truthy : bool)
    (m d : slayer) (mz t h : Qc) (c : option contact) (fuel : nat) (cs : list (@call face)),
  (forall d r, (0 <= d)%Z -> incl r (sized d r)) -> (0 < dbu)%Qc -> (forall l, In l stack -> nonneg_layer l) ->
  s_type m = Metal mz t c ->
  metal_dielectrics stack included dbu layer_shapes bbox sized empty_truthy fuel m = BCalls cs ->
  simple_dielectric_above_metal stack included (s_name m) = (Some d, h) ->
  forall p z, In p bbox -> (mz <= z)%Qc -> (z < mz + h)%Qc -> exists x, In x cs /\ covers p z x.
Proof.
  intros face EF stack included dbu ls bbox sized et m d mz t h c fuel cs Sx Dp N T E D p z P Z1 Z2.
  assert (Mz : metal_z m = mz) by (unfold metal_z; rewrite T; reflexivity).
  assert (Plain : In (AddDielectric (s_name d) bbox mz h) cs -> exists x, In x cs /\ covers p z x).
  { intros J. eexists. split; [exact J|]. cbn. auto. }
  unfold metal_dielectrics in E. rewrite T in E. destruct (ls (s_name m)) as [shapes|].
  2: { unfold simple_calls in E. rewrite D, Mz in E. injection E as <-. apply Plain. left. reflexivity. }
  destruct (negb (truthy et shapes)).
  { unfold simple_calls in E. rewrite D, Mz in E. injection E as <-. apply Plain. left. reflexivity. }
  destruct (sidewalls _ _ _ _ _ fuel _ _ _ _ _ _ _) as [cs1 r1 h1 nm1| |] eqn:F; try discriminate.
  apply sidewalls_done in F. destruct F as (chain & U & -> & -> & -> & ->). cbn [app] in E.
  assert (Nc : forall l, In l chain -> nonneg_layer l).
  { intros l J. apply N. clear -U J. induction U as [|n a as_ F U IH]; [destruct J|]. destruct J as [<-|J]; [|exact (IH J)].
    apply lookup_found in F. apply F. }
  rewrite Qcplus_0_l in E. set (R := grown sized dbu shapes chain) in *. set (H := risen t chain) in *.
  set (W := walk dbu bbox sized shapes mz t 0%Qc chain) in *.
  destruct (in_dec eq_dec p R) as [IR|NR].
  - (* beside or above the metal *)
    destruct (Qclt_le_dec z (mz + H)%Qc) as [Low|High].
    + assert (Ne : chain <> []).
      { intros ->. unfold H, risen in Low. rewrite qsumf_nil in Low. rewrite Qcplus_0_r in Low. apply Qclt_not_le in Low. contradiction. }
      destruct (walk_last dbu bbox sized mz t chain shapes 0%Qc Ne) as [x J]. rewrite Qcplus_0_l in J.
      destruct (simple_calls _ _ _ _ _ _ _) as [cs2|]; [|discriminate]. injection E as <-.
      eexists. split; [apply in_or_app; left; exact J|]. cbn. auto.
    + unfold simple_calls in E. rewrite D, Mz in E. assert (Tr : truthy et R = true) by (destruct R; [destruct IR | reflexivity]).
      rewrite Tr in E. cbn [negb] in E. destruct (qleb 0 H); [|discriminate]. injection E as <-.
      exists (AddDielectric (s_name d) R (mz + H)%Qc (h - H)%Qc). split; [apply in_or_app; right; left; reflexivity|].
      cbn. split; [exact IR|]. split; [exact High|]. replace (mz + H + (h - H))%Qc with (mz + h)%Qc by ring. exact Z2.
  - (* away from the metal *)
    assert (Sc : exists region pre, (In p region) /\ simple_calls stack included bbox et m (Some (R, H)) (last_flat dbu bbox sized shapes None chain) =
        (if negb (truthy et R) then Some (pre ++ match last_flat dbu bbox sized shapes None chain with
                      | Some (nr, nh) => if truthy et nr then [AddDielectric (s_name d) region (mz + nh)%Qc (h - nh)%Qc] else [AddDielectric (s_name d) region mz h]
                      | None => [AddDielectric (s_name d) region mz h] end)
         else if qleb 0 H then Some (pre ++ match last_flat dbu bbox sized shapes None chain with
                      | Some (nr, nh) => if truthy et nr then [AddDielectric (s_name d) region (mz + nh)%Qc (h - nh)%Qc] else [AddDielectric (s_name d) region mz h]
                      | None => [AddDielectric (s_name d) region mz h] end) else None)).
    { unfold simple_calls. rewrite D, Mz. destruct (negb (truthy et R)) eqn:Tr.
      - exists bbox, []. split; [exact P | reflexivity].
      - destruct (qleb 0 H); [exists (minus bbox R), [AddDielectric (s_name d) R (mz + H)%Qc (h - H)%Qc] | exists (minus bbox R), []];
          (split; [apply minus_In; auto | reflexivity]). }
    destruct Sc as (region & pre & Pr & Sc). rewrite Sc in E. clear Sc.
    assert (E2 : cs = W ++ pre ++ match last_flat dbu bbox sized shapes None chain with
                      | Some (nr, nh) => if truthy et nr then [AddDielectric (s_name d) region (mz + nh)%Qc (h - nh)%Qc] else [AddDielectric (s_name d) region mz h]
                      | None => [AddDielectric (s_name d) region mz h] end).
    { destruct (negb (truthy et R)); [congruence|]. destruct (qleb 0 H); [congruence | discriminate]. }
    clear E. destruct (last_flat dbu bbox sized shapes None chain) as [[nr nh]|] eqn:L.
    + apply (walk_flat included dbu bbox sized Sx Dp mz t chain shapes 0%Qc) in L; [|exact Nc]. destruct L as [L|(x & r0 & -> & I & J)]; [discriminate|].
      assert (P0 : In p (minus bbox r0)) by (apply minus_In; split; [exact P | intros X; apply NR, I, X]).
      assert (Tr : truthy et (minus bbox r0) = true) by (destruct (minus bbox r0); [destruct P0 | reflexivity]). rewrite Tr in E2. subst cs.
      destruct (Qclt_le_dec z (mz + nh)%Qc) as [Low|High].
      * eexists. split; [apply in_or_app; left; exact J|]. cbn. auto.
      * eexists. split; [apply in_or_app; right; apply in_or_app; right; left; reflexivity|]. cbn. split; [exact Pr|]. split; [exact High|].
        replace (mz + nh + (h - nh))%Qc with (mz + h)%Qc by ring. exact Z2.
    + subst cs. eexists. split; [apply in_or_app; right; apply in_or_app; right; left; reflexivity|]. cbn. auto.
Qed.
Print Assumptions C64_no_gap.

(** ** C65 *)
Lemma solid_call {face} (stack : list slayer) (n : string * (string -> option (list face))) p r z h :
  net_solid stack (snd n) r z h -> In p r -> In (AddConductor (fst n) r z h) (net_calls stack n).
Proof.
  intros S P. unfold net_calls. apply in_or_app.
  destruct S as [l z t c r J T S | l z t c r J T S | l c r J T S | l c r J T S]; [left|left|right|right];
    apply in_flat_map; exists l; (split; [exact J|]); unfold metal_calls, diffusion_calls, cond_call; rewrite T, S;
    (destruct r as [|x r]; [destruct P|]); apply in_or_app; [left|right|left|right]; left; reflexivity.
Qed.
Lemma In_firsts {A} `{EqDec A} (l : list A) : forall seen x, In x l -> In x seen \/ In x (firsts seen l).
Proof.
  induction l as [|y l IH]; intros seen x J; [destruct J|]. cbn [firsts]. destruct (existsb (eqb y) seen) eqn:E.
  - destruct J as [<-|J]; [|apply IH, J]. left. apply existsb_exists in E. destruct E as (w & Jw & E). apply eqb_eq in E. subst. exact Jw.
  - destruct J as [<-|J]; [right; left; reflexivity|]. destruct (IH (y :: seen) x J) as [[->|S]|F]; [right; left; reflexivity | left; exact S | right; right; exact F].
Qed.
(** Where a net has metal, a via, diffusion or a contact, the generated model has a conductor there and no dielectric; it is
    this net unless another conductor occupies the same place. *)
Theorem C65_conductors_kept :
  forall (face : Type) (EF : EqDec face) (stack : list slayer) (included : string -> bool) (dbu : Qc)
    (nets : list (string * (string -> option (list face)))) (layer_shapes : string -> option (list face))
    (bbox : list face) (sized : Z -> list face -> list face) (empty_truthy : bool) (fuel : nat) (cs : list (@call face))
    (name : string) (shapes : string -> option (list face)) (r : list face) (z h : Qc) (p : face) (level : Z),
  build_calls stack included dbu nets layer_shapes bbox sized empty_truthy fuel = BCalls cs ->
  In (name, shapes) nets -> net_solid stack shapes r z h -> In p r ->
  (z2norm dbu z <= level)%Z -> (level < z2norm dbu (z + h)%Qc)%Z ->
  (exists n, owner_above dbu cs level p = Some (Net n)) /\
  ((forall n, n <> name -> present_above dbu cs level p (Net n) = false) -> owner_above dbu cs level p = Some (Net name)).
Proof.
  intros face EF stack included dbu nets ls bbox sized et fuel cs name shapes r z h p lv E Jn S P L1 L2.
  assert (J : In (AddConductor name r z h) cs).
  { unfold build_calls in E. destruct (find _ stack) as [fox|]; [|discriminate]. destruct (find _ stack) as [[sn [sh st| | | | | | |]]|]; try discriminate.
    destruct (find is_metal stack) as [gate|]; [|discriminate]. destruct (all_dielectrics _ _ _ _ _ _ _ _ stack) as [ds| |]; try discriminate.
    injection E as <-. right. apply in_or_app. right. apply in_or_app. left. apply in_flat_map. exists (name, shapes). split; [exact Jn|].
    exact (solid_call stack (name, shapes) p r z h S P). }
  assert (Pr : present_above dbu cs lv p (Net name) = true).
  { apply existsb_exists. exists (AddConductor name r z h). split; [exact J|]. cbn [call_adds]. rewrite eqb_refl.
    apply Z.leb_le in L1. apply Z.ltb_lt in L2. rewrite L1, L2. cbn. apply existsb_exists. exists p. split; [exact P | apply eqb_refl]. }
  assert (Jp : In name (nets_of cs)).
  { unfold nets_of. edestruct (In_firsts (flat_map (fun c : @call face => match c with AddConductor n _ _ _ => [n] | _ => [] end) cs) [] name) as [[]|X]; [|exact X].
    apply in_flat_map. eexists. split; [exact J | left; reflexivity]. }
  unfold owner_above, priority. clear -Pr Jp. induction (nets_of cs) as [|n ns IH]; [destruct Jp|]. cbn [map app find].
  destruct (present_above dbu cs lv p (Net n)) eqn:X.
  - split; [exists n; reflexivity|]. intros A. destruct (eq_dec n name) as [->|Nn]; [reflexivity|]. rewrite (A n Nn) in X. discriminate.
  - apply IH. destruct Jp as [->|Jp]; [congruence | exact Jp].
Qed.
Print Assumptions C65_conductors_kept.

(** ** a small technology for C38 and C62-C65: faces 0 (metal), 1 (beside it), 2 (far away) *)
Definition ex_stack : list slayer :=
  [SLayer "subs" (Substrate 1 1); SLayer "diff" (Diffusion (Contact "licon" 1)); SLayer "fox" (FieldOxide (Q2Qc 4));
   SLayer "poly" (Metal 1 1 (Some (Contact "pc" 1)));
   SLayer "spnit" (ConformalDiel (Q2Qc 7) (Q2Qc (1 # 2)) (Q2Qc (1 # 4)) 1 "iox2"); SLayer "iox" (SidewallDiel (Q2Qc 3) 0 1 "poly");
   SLayer "iox2" (SidewallDiel (Q2Qc 3) (Q2Qc (1 # 4)) 0 "iox");
   SLayer "psg" (SimpleDiel (Q2Qc 3)); SLayer "psg2" (SimpleDiel (Q2Qc 2)); SLayer "m1" (Metal (Q2Qc 8) 1 None); SLayer "air" (SimpleDiel 1)].
Definition ex_inc (s : string) : bool := true.
Definition ex_grow (d : Z) (r : list nat) : list nat :=
  if (0 <? d)%Z then r ++ flat_map (fun x => match x with 0 => [1] | _ => [] end)%nat r else r.
Definition ex_layers (s : string) : option (list nat) := if eqb s "poly" then Some [0%nat] else None.
Definition ex_shapes (s : string) : option (list nat) :=
  if eqb s "poly" then Some [0]%nat else if eqb s "pc" then Some [0]%nat else if eqb s "diff" then Some [1]%nat else if eqb s "licon" then Some [1]%nat else None.
Definition ex_nets : list (string * (string -> option (list nat))) := [("A", ex_shapes)].
Definition ex_run := build_calls ex_stack ex_inc (Q2Qc (1 # 10)) ex_nets ex_layers [0; 1; 2]%nat ex_grow true 10.
Definition summary (b : @bres nat) : list (string * list nat * Z * Z) :=
  match b with
  | BCalls cs => flat_map (fun c => match c with
      | AddDielectric m r z h | AddConductor m r z h => [(m, r, Qfloor (this (z * Q2Qc 4)%Qc), Qfloor (this (h * Q2Qc 4)%Qc))] | _ => [] end) cs
  | _ => [] end.
(** heights in quarters *)
Example C38_example : summary ex_run =
  [("A", [0]%nat, 4, 4); ("A", [0]%nat, 8, 4); ("A", [1]%nat, 0, 0); ("A", [1]%nat, 0, 4);
   ("VSUBS", [0; 2]%nat, -8, 4); ("fox", [0; 1; 2]%nat, 0, 4);
   ("iox", [0; 1]%nat, 4, 4); ("iox2", [0; 1]%nat, 4, 5); ("spnit", [0; 1; 1]%nat, 4, 11); ("spnit", [2]%nat, 4, 1);
   ("psg", [0; 1; 1]%nat, 15, 17); ("psg", [2]%nat, 5, 27); ("air", [0; 1; 2]%nat, 32, 20)]%Z.
Proof. vm_compute. reflexivity. Qed.
(** leaving out psg leaves out its pieces only; leaving out iox cuts the chain *)
Definition ex_names (inc : string -> bool) : list string :=
  map (fun e => fst (fst (fst e))) (summary (build_calls ex_stack inc (Q2Qc (1 # 10)) [] ex_layers [0; 1; 2]%nat ex_grow true 10)).
Example C62_filter_example : ex_names (fun s => negb (eqb s "psg")) = ["VSUBS"; "fox"; "iox"; "iox2"; "spnit"; "spnit"; "air"].
Proof. vm_compute. reflexivity. Qed.
Example C38_filter_example : ex_names (fun s => negb (eqb s "iox")) = ["VSUBS"; "fox"; "psg"; "psg"; "air"].
Proof. vm_compute. reflexivity. Qed.
Example C63_example : match ex_run with BCalls cs => match SW_Model.build (Q2Qc (1 # 10)) cs with Some _ => true | None => false end | _ => false end = true.
Proof. vm_compute. reflexivity. Qed.
(** two dielectrics around the same metal *)
Example C38_ambiguous_example :
  match build_calls (SLayer "x" (SidewallDiel 1 0 1 "poly") :: ex_stack) ex_inc (Q2Qc (1 # 10)) [] ex_layers [0; 1; 2]%nat ex_grow true 10 with
  | BRaised => true | _ => false end = true.
Proof. vm_compute. reflexivity. Qed.
Example C40_missing_computed : match side_overlap_table ex_subs (SoCap "poly" "m1" (Q2Qc 1) :: ex_sos) with None => true | Some _ => false end = true.
Proof. vm_compute. reflexivity. Qed.
Example C38_acyclic : acyclic ex_stack ex_inc.
Proof.
  exists (fun s => if eqb s "poly" then 0 else if eqb s "iox" then 1 else if eqb s "iox2" then 2 else 3)%nat.
  intros n l (J & _ & R). cbn in J. repeat (destruct J as [<-|J]; [cbn in R; try discriminate; injection R as <-; vm_compute; lia|]). destruct J.
Qed.
Example C38_distinct : NoDup (map s_name ex_stack).
Proof. cbn. repeat constructor; cbn; intuition discriminate. Qed.
Example C64_nonneg : forall l, In l ex_stack -> nonneg_layer l.
Proof.
  assert (Q : forall x, qleb 0 x = true -> (0 <= x)%Qc) by (intros x; apply qleb_true).
  intros l J. cbn in J. repeat (destruct J as [<-|J]; [cbn; repeat split; apply Q; vm_compute; reflexivity|]). destruct J.
Qed.
Example C64_sized : forall d r, (0 <= d)%Z -> incl r (ex_grow d r).
Proof. intros d r _ x J. unfold ex_grow. destruct (0 <? d)%Z; [apply in_or_app; left|]; exact J. Qed.
(** a dielectric with the name of the metal it refers to *)
Definition ex_cyclic : list slayer := [SLayer "poly" (Metal 1 1 None); SLayer "poly" (SidewallDiel 1 0 1 "poly")].
Example C38_cycle_example :
  reaches ex_cyclic ex_inc "poly" "poly" /\ NoDup ex_cyclic /\
  forall n a b, refers ex_cyclic ex_inc n a -> refers ex_cyclic ex_inc n b -> a = b.
Proof.
  split; [|split].
  - apply (reaches_one _ _ "poly" (SLayer "poly" (SidewallDiel 1 0 1 "poly"))). split; [right; left; reflexivity | split; reflexivity].
  - constructor; [intros [X|[]]; discriminate|]. constructor; [intros [] | constructor].
  - intros n a b (A & _ & Ra) (B & _ & Rb). destruct A as [<-|[<-|[]]], B as [<-|[<-|[]]]; try reflexivity; discriminate.
Qed.
