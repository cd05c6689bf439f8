(** C29-C32: the sweep of the FasterCap model generator. *)
From Coq Require Import String Sorted Permutation.
From Verif Require Import PyBase PyLib SW_Model SW_Spec SW_Proofs SW_Sweep SW_Run.
Local Open Scope string_scope.

(** ** C29 *)
(** After level [z] of the sweep the region of a name is exactly what it owns just above [z]:
    the points where one of its layers contains [z] and no name of higher priority does.
    Missing from the full claim: models with a single name, see below. *)
Theorem C29_sweep_state_partial :
  forall (face piece : Type) (EF : EqDec face) (EP : EqDec piece) (left_of right_of : piece -> face) (pieces : list piece)
    (dbu : Qc) (cs : list (@call face)) (b : @builder face),
  NoDup pieces -> build dbu cs = Some b -> (2 <= List.length (priority cs))%nat ->
  forall lower z higher, z_levels b = (lower ++ z :: higher)%list ->
  forall k p, In k (priority cs) ->
    (In p (dgr (state (run left_of right_of pieces b (lower ++ [z]))) k) <-> owner_above dbu cs z p = Some k).
Proof.
  intros face piece EF EP lo ro pieces dbu cs b Np B Two l1 z l2 El k p J.
  pose proof (run_ok lo ro pieces Np dbu cs b (build_described dbu cs b B) Two (l1 ++ [z]) l2) as R.
  rewrite <- app_assoc in R. specialize (R El). destruct R as [[G1 G2 G3 G4] _ _ _ _ _ _]. rewrite lastz_snoc in G3.
  specialize (G3 k J p). cbn [act] in G3. unfold has in G3. rewrite <- existsb_In. rewrite G3. apply eqb_true.
Qed.
Print Assumptions C29_sweep_state_partial.

(** the levels visited are exactly the heights at which a layer starts or stops, in increasing order *)
Theorem C29_levels :
  forall (face : Type) (dbu : Qc) (cs : list (@call face)) (b : @builder face), build dbu cs = Some b ->
  StronglySorted Z.lt (z_levels b) /\ forall z, In z (z_levels b) <-> is_level dbu cs z.
Proof. intros face dbu cs b B. apply z_levels_ok. apply build_described, B. Qed.
Print Assumptions C29_levels.

(** ** C30 *)
(** no two names own the same point, a covered point is owned, and the built-in check reports nothing *)
Theorem C30_disjoint_partial :
  forall (face piece : Type) (EF : EqDec face) (EP : EqDec piece) (left_of right_of : piece -> face) (pieces : list piece)
    (dbu : Qc) (cs : list (@call face)) (b : @builder face),
  NoDup pieces -> build dbu cs = Some b -> (2 <= List.length (priority cs))%nat ->
  forall lower z higher, z_levels b = (lower ++ z :: higher)%list ->
  let g := run left_of right_of pieces b (lower ++ [z]) in
  errors g = 0%nat /\
  (forall k k' p, In k (priority cs) -> In k' (priority cs) -> In p (dgr (state g) k) -> In p (dgr (state g) k') -> k = k') /\
  (forall k p, In k (priority cs) -> present_above dbu cs z p k = true ->
     exists k', In k' (priority cs) /\ In p (dgr (state g) k')).
Proof.
  intros face piece EF EP lo ro pieces dbu cs b Np B Two l1 z l2 El g.
  pose proof (C29_sweep_state_partial face piece EF EP lo ro pieces dbu cs b Np B Two l1 z l2 El) as S.
  pose proof (run_ok lo ro pieces Np dbu cs b (build_described dbu cs b B) Two (l1 ++ [z]) l2) as R.
  rewrite <- app_assoc in R. specialize (R El). split; [|split].
  - apply (ri_err _ _ _ _ _ _ _ R).
  - intros k k' p J J' H1 H2. apply S in H1; [|exact J]. apply S in H2; [|exact J']. congruence.
  - intros k p J E. unfold owner_above in S. destruct (find (present_above dbu cs z p) (priority cs)) as [k'|] eqn:F.
    + exists k'. assert (J' : In k' (priority cs)) by (apply find_some in F; tauto). split; [exact J'|]. apply S; assumption.
    + pose proof (find_none _ _ F k J). congruence.
Qed.
Print Assumptions C30_disjoint_partial.

(** ** C31 *)
(** At every height and point the horizontal surfaces are the expected ones, provided the owner
    does not change there or no third name is present both below and above. *)
Theorem C31_horizontal_partial :
  forall (face piece : Type) (EF : EqDec face) (EP : EqDec piece) (left_of right_of : piece -> face) (pieces : list piece)
    (dbu : Qc) (cs : list (@call face)) (b : @builder face) g,
  NoDup pieces -> build dbu cs = Some b -> (2 <= List.length (priority cs))%nat -> generate left_of right_of pieces b = Some g ->
  forall z p,
  (owner_below dbu cs z p = owner_above dbu cs z p \/
   forall k, In k (priority cs) -> present_below dbu cs z p k = true -> present_above dbu cs z p k = true ->
     owner_below dbu cs z p = Some k \/ owner_above dbu cs z p = Some k) ->
  horizontals z p (surfaces g) = expected_h (owner_below dbu cs z p) (owner_above dbu cs z p).
Proof.
  intros face piece EF EP lo ro pieces dbu cs b g Np B Two G z p X.
  pose proof (build_described dbu cs b B) as De. pose proof (z_levels_ok dbu cs b De) as [Sd Lv].
  assert (R : runinv lo ro pieces dbu cs (z_levels b) g).
  { unfold generate in G. destruct (z_levels b) as [|z0 t] eqn:E; [discriminate|]. injection G as <-. rewrite <- E.
    apply (run_ok lo ro pieces Np dbu cs b De Two (z_levels b) []). rewrite app_nil_r. reflexivity. }
  destruct (in_dec Z.eq_dec z (z_levels b)) as [J|J].
  - rewrite (ri_h _ _ _ _ _ _ _ R z p J). unfold labels_z. cbn zeta. apply labels_exact.
    + apply firsts_NoDup.
    + apply firsts_NoDup.
    + destruct X as [X|X]; [left; symmetry; exact X|right]. intros k Jk A Bl.
      destruct (X k Jk Bl A) as [F|F]; [right|left]; exact F.
  - rewrite (ri_h0 _ _ _ _ _ _ _ R z p J). unfold owner_below, owner_above.
    rewrite (find_ext (present_below dbu cs z p) (present_above dbu cs z p)).
    + unfold expected_h. rewrite eqb_refl. reflexivity.
    + intros k _. apply present_no_level. rewrite <- Lv. exact J.
Qed.
Print Assumptions C31_horizontal_partial.

(** without that condition: the expected surface is still emitted, unless two nets touch *)
Theorem C31_no_surface_missing :
  forall (face piece : Type) (EF : EqDec face) (EP : EqDec piece) (left_of right_of : piece -> face) (pieces : list piece)
    (dbu : Qc) (cs : list (@call face)) (b : @builder face) g,
  NoDup pieces -> build dbu cs = Some b -> (2 <= List.length (priority cs))%nat -> generate left_of right_of pieces b = Some g ->
  forall z p lab,
  ~ (exists n n', owner_below dbu cs z p = Some (Net n) /\ owner_above dbu cs z p = Some (Net n')) ->
  In lab (expected_h (owner_below dbu cs z p) (owner_above dbu cs z p)) -> In lab (horizontals z p (surfaces g)).
Proof.
  intros face piece EF EP lo ro pieces dbu cs b g Np B Two G z p lab X I.
  pose proof (build_described dbu cs b B) as De. pose proof (z_levels_ok dbu cs b De) as [Sd Lv].
  assert (R : runinv lo ro pieces dbu cs (z_levels b) g).
  { unfold generate in G. destruct (z_levels b) as [|z0 t] eqn:E; [discriminate|]. injection G as <-. rewrite <- E.
    apply (run_ok lo ro pieces Np dbu cs b De Two (z_levels b) []). rewrite app_nil_r. reflexivity. }
  destruct (in_dec Z.eq_dec z (z_levels b)) as [J|J].
  - rewrite (ri_h _ _ _ _ _ _ _ R z p J). unfold labels_z. cbn zeta. apply labels_complete; [|exact I].
    intros [A1 A2]. apply X. unfold owner_below, owner_above, priority.
    destruct (find (present_below dbu cs z p) _) as [[n|]|]; try discriminate.
    destruct (find (present_above dbu cs z p) _) as [[n'|]|]; try discriminate. eauto.
  - exfalso. unfold owner_below, owner_above in I.
    rewrite (find_ext (present_below dbu cs z p) (present_above dbu cs z p)) in I.
    + unfold expected_h in I. rewrite eqb_refl in I. exact I.
    + intros k _. apply present_no_level. rewrite <- Lv. exact J.
Qed.
Print Assumptions C31_no_surface_missing.

(** ** C32 *)
(** Between two successive heights, at every boundary piece, exactly the expected vertical
    surfaces are emitted (in some order), and no vertical surface spans any other interval. *)
Theorem C32_vertical_partial :
  forall (face piece : Type) (EF : EqDec face) (EP : EqDec piece) (left_of right_of : piece -> face) (pieces : list piece)
    (dbu : Qc) (cs : list (@call face)) (b : @builder face) g,
  NoDup pieces -> build dbu cs = Some b -> (2 <= List.length (priority cs))%nat -> generate left_of right_of pieces b = Some g ->
  forall z zz e, In e pieces ->
  ((is_level dbu cs z /\ is_level dbu cs zz /\ (z < zz)%Z /\ forall y, is_level dbu cs y -> ~ (z < y < zz)%Z) ->
   Permutation (verticals z zz e (surfaces g))
     (expected_v (materials_of cs) (owner_above dbu cs z (left_of e)) (owner_above dbu cs z (right_of e)))) /\
  (~ (is_level dbu cs z /\ is_level dbu cs zz /\ (z < zz)%Z /\ forall y, is_level dbu cs y -> ~ (z < y < zz)%Z) ->
   verticals z zz e (surfaces g) = []).
Proof.
  intros face piece EF EP lo ro pieces dbu cs b g Np B Two G z zz e Ie.
  pose proof (build_described dbu cs b B) as De. pose proof (z_levels_ok dbu cs b De) as [Sd Lv].
  assert (R : runinv lo ro pieces dbu cs (z_levels b) g).
  { unfold generate in G. destruct (z_levels b) as [|z0 t] eqn:E; [discriminate|]. injection G as <-. rewrite <- E.
    apply (run_ok lo ro pieces Np dbu cs b De Two (z_levels b) []). rewrite app_nil_r. reflexivity. }
  assert (C : consecutive (z_levels b) z zz <-> (is_level dbu cs z /\ is_level dbu cs zz /\ (z < zz)%Z /\ forall y, is_level dbu cs y -> ~ (z < y < zz)%Z)).
  { split.
    - intros (l1 & l2 & E). rewrite <- !Lv, E. rewrite E in Sd. split; [apply in_or_app; right; left; reflexivity|].
      split; [apply in_or_app; right; right; left; reflexivity|].
      split; [apply (proj2 (sorted_app l1 (zz :: l2) z zz Sd)); left; reflexivity|].
      intros y Ly [Y1 Y2]. apply Lv in Ly. rewrite E in Ly. apply in_app_or in Ly. destruct Ly as [Ly|[<-|[<-|Ly]]]; try lia.
      + pose proof (proj1 (sorted_app l1 (zz :: l2) z y Sd) Ly). lia.
      + replace (l1 ++ z :: zz :: l2)%list with ((l1 ++ [z]) ++ zz :: l2)%list in Sd by (rewrite <- app_assoc; reflexivity).
        pose proof (proj2 (sorted_app (l1 ++ [z]) l2 zz y Sd) Ly). lia.
    - intros (L1 & L2 & Lt & No). apply Lv in L1. apply in_split in L1. destruct L1 as (l1 & [|y l2] & E).
      + exfalso. apply Lv in L2. rewrite E in Sd, L2. apply in_app_or in L2. destruct L2 as [L2|[L2|[]]]; [|lia].
        pose proof (proj1 (sorted_app l1 [] z zz Sd) L2). lia.
      + assert (y = zz); [|subst; exists l1, l2; exact E].
        rewrite E in Sd. assert (Zy : (z < y)%Z) by (apply (proj2 (sorted_app l1 (y :: l2) z y Sd)); left; reflexivity).
        assert (Ly : is_level dbu cs y) by (apply Lv; rewrite E; apply in_or_app; right; right; left; reflexivity).
        pose proof (No y Ly). apply Lv in L2. rewrite E in L2. apply in_app_or in L2. destruct L2 as [L2|[L2|[L2|L2]]]; try lia.
        * pose proof (proj1 (sorted_app l1 (y :: l2) z zz Sd) L2). lia.
        * replace (l1 ++ z :: y :: l2)%list with ((l1 ++ [z]) ++ y :: l2)%list in Sd by (rewrite <- app_assoc; reflexivity).
          pose proof (proj2 (sorted_app (l1 ++ [z]) l2 y zz Sd) L2). lia. }
  rewrite <- C. split; intros X.
  - apply (ri_v _ _ _ _ _ _ _ R); assumption.
  - apply (ri_v0 _ _ _ _ _ _ _ R); assumption.
Qed.
Print Assumptions C32_vertical_partial.

(** ** witnesses *)
(** a one-dimensional arrangement: faces 0,1,2,3 with boundary [e] between [e] and [e+1] *)
Definition ex_left (e : nat) : nat := e.
Definition ex_right (e : nat) : nat := S e.
Definition ex_pieces : list nat := seq 0 3.
Definition ex_gen (cs : list (@call nat)) : option (@gen nat nat) :=
  match build 1%Qc cs with Some b => generate ex_left ex_right ex_pieces b | None => None end.
Definition ex_surfaces (cs : list (@call nat)) : list (@surface nat nat) := match ex_gen cs with Some g => surfaces g | None => [] end.
Definition q (z : Z) : Qc := Q2Qc (inject_Z z).

(** a net on oxide, both inside nitride *)
Definition cs_ex : list (@call nat) :=
  [AddMaterial "ox"; AddMaterial "nit"; AddConductor "A" [1%nat] (q 1) (q 1); AddDielectric "ox" [0; 1; 2]%nat (q 0) (q 1);
   AddDielectric "nit" [0; 1; 2]%nat (q 0) (q 3)].
Example C29_example :
  (match build 1%Qc cs_ex with Some b => (2 <=? List.length (priority cs_ex))%nat && match z_levels b with [0; 1; 2; 3]%Z => true | _ => false end | None => false end) = true /\
  owner_above 1%Qc cs_ex 1 1%nat = Some (Net "A") /\ owner_above 1%Qc cs_ex 0 1%nat = Some (Mat "ox") /\
  owner_above 1%Qc cs_ex 1 2%nat = Some (Mat "nit") /\ owner_above 1%Qc cs_ex 1 3%nat = None.
Proof. repeat split; vm_compute; reflexivity. Qed.
Example C31_example :
  horizontals 2 1%nat (ex_surfaces cs_ex) = [LTop "A" (Some "nit")] /\ horizontals 0 1%nat (ex_surfaces cs_ex) = [LDiel None (Some "ox")] /\
  horizontals 3 0%nat (ex_surfaces cs_ex) = [LDiel (Some "nit") None] /\ horizontals 7 0%nat (ex_surfaces cs_ex) = [].
Proof. repeat split; vm_compute; reflexivity. Qed.
Example C32_example :
  verticals 1 2 0%nat (ex_surfaces cs_ex) = [LVCond "A" (Some "nit") true] /\ verticals 1 2 1%nat (ex_surfaces cs_ex) = [LVCond "A" (Some "nit") false] /\
  verticals 0 1 2%nat (ex_surfaces cs_ex) = [LVDiel None (Some "ox") false] /\ verticals 0 1 0%nat (ex_surfaces cs_ex) = [].
Proof. repeat split; vm_compute; reflexivity. Qed.

(** C29-C32 are false for a model with a single name: the separation check empties the only
    region, so that neither side walls nor the top surface are generated. *)
Definition cs_single : list (@call nat) := [AddConductor "A" [1%nat] (q 0) (q 1)].
Theorem C29_single_name_refuted :
  exists (cs : list (@call nat)) b lower z higher p k,
    build 1%Qc cs = Some b /\ z_levels b = (lower ++ z :: higher)%list /\ In k (priority cs) /\
    owner_above 1%Qc cs z p = Some k /\ ~ In p (dgr (state (run ex_left ex_right ex_pieces b (lower ++ [z]))) k).
Proof.
  destruct (build 1%Qc cs_single) as [b|] eqn:B; [|vm_compute in B; discriminate].
  exists cs_single, b, [], 0%Z, [1%Z], 1%nat, (Net "A"). split; [exact B|].
  vm_compute in B. injection B as <-. split; [vm_compute; reflexivity|]. split; [vm_compute; auto|]. split; [vm_compute; reflexivity|].
  vm_compute. tauto.
Qed.
Print Assumptions C29_single_name_refuted.
Theorem C31_single_name_refuted :
  exists (cs : list (@call nat)) z zz p e,
    horizontals z p (ex_surfaces cs) = [] /\ expected_h (owner_below 1%Qc cs z p) (owner_above 1%Qc cs z p) = [LTop "A" None] /\
    verticals zz z e (ex_surfaces cs) = [] /\
    expected_v (materials_of cs) (owner_above 1%Qc cs zz (ex_left e)) (owner_above 1%Qc cs zz (ex_right e)) = [LVCond "A" None true].
Proof. exists cs_single, 1%Z, 0%Z, 1%nat, 0%nat. repeat split; vm_compute; reflexivity. Qed.
Print Assumptions C31_single_name_refuted.

(** C31 is false where two owners hand over while a third material is present below and above:
    a surface between the first owner and the third material appears that does not exist. *)
Definition cs_ghost : list (@call nat) :=
  [AddMaterial "m1"; AddMaterial "m2"; AddMaterial "m3"; AddDielectric "m1" [1%nat] (q 0) (q 1);
   AddDielectric "m2" [1%nat] (q 1) (q 1); AddDielectric "m3" [1%nat] (q 0) (q 2)].
Theorem C31_ghost_surface_refuted :
  exists (cs : list (@call nat)) z p,
    (2 <= List.length (priority cs))%nat /\
    owner_below 1%Qc cs z p = Some (Mat "m1") /\ owner_above 1%Qc cs z p = Some (Mat "m2") /\
    horizontals z p (ex_surfaces cs) = [LDiel (Some "m1") (Some "m2"); LDiel (Some "m1") (Some "m3")].
Proof. exists cs_ghost, 1%Z, 1%nat. split; [apply Nat.leb_le; vm_compute; reflexivity|]. repeat split; vm_compute; reflexivity. Qed.
Print Assumptions C31_ghost_surface_refuted.
