(** remove_node, connect_nodes, eliminate_node: never raise on consistent
    networks, keep them consistent, and their effect on the conductances. *)
From Coq Require Import String Permutation.
From Verif Require Import PyBase RN_Model RN_Spec RN_Inv.
Set Implicit Arguments.
Local Open Scope Qc_scope.

Lemma list_remove1_In {A} `{EqDec A} (l : list A) x : In x l ->
  exists l1 l2, l = l1 ++ x :: l2 /\ list_remove1 l x = Some (l1 ++ l2).
Proof.
  induction l as [|y t IH]; intros I; [destruct I|]. simpl. destruct (eq_dec x y) as [->|N].
  - exists [], t; auto.
  - destruct I as [E|I]; [congruence|]. destruct (IH I) as (l1 & l2 & -> & R).
    rewrite R. exists (y :: l1), l2; auto.
Qed.

(** the network in which node [b]'s star list is replaced by [rest]: used while the
    resistors of [b] are being removed one by one *)
Definition vnet (n : net) (b : nid) (rest : list (ref * nid)) : net :=
  with_stars n (dset (node_to_s n) b rest).

(** everything except stars, s and heap is the same *)
Record same_frame (n n1 : net) : Prop := {
  sf_nodes : nodes n1 = nodes n;
  sf_locs : locations n1 = locations n;
  sf_next : next_id n1 = next_id n;
  sf_prec : precious n1 = precious n;
  sf_names : node_names n1 = node_names n }.
Lemma same_frame_refl n : same_frame n n. Proof. constructor; reflexivity. Qed.
Lemma same_frame_trans a b c : same_frame a b -> same_frame b c -> same_frame a c.
Proof. intros [] []; constructor; congruence. Qed.
Lemma add_cond_ref_frame n a b r : same_frame n (add_cond_ref n a b r).
Proof. constructor; [apply add_cond_ref_nodes|apply add_cond_ref_locs|apply add_cond_ref_next|apply add_cond_ref_prec|apply add_cond_ref_names]. Qed.
Lemma add_cond_frame n a b g : same_frame n (add_cond n a b g).
Proof. constructor; [apply add_cond_nodes|apply add_cond_locs|apply add_cond_next|apply add_cond_prec|apply add_cond_names]. Qed.

Lemma dget_s_after_drop (d : dict (nid * nid) ref) b o x y : dwf d -> b <> o ->
  dget (dremove (dremove d (b, o)) (o, b)) (x, y) = if same_pair x y b o then None else dget d (x, y).
Proof.
  intros W N. rewrite !dget_dremove by (try apply dwf_dremove; exact W).
  destruct (same_pair x y b o) eqn:SP.
  - apply same_pair_spec in SP. destruct SP as [[-> ->]|[-> ->]]; des_eq; congruence.
  - des_eq; try reflexivity; exfalso.
    + injection e as -> ->. assert (same_pair o b b o = true) by (apply same_pair_spec; auto). congruence.
    + injection e as -> ->. assert (same_pair b o b o = true) by (apply same_pair_spec; auto). congruence.
Qed.

Lemma drop_resistor_ok n b c o rest : Inv (vnet n b ((c, o) :: rest)) -> dwf (node_to_s n) ->
  exists n1, drop_resistor n b (c, o) = Some n1 /\ Inv (vnet n1 b rest) /\ same_frame n n1 /\
    heap n1 = heap n /\
    (forall x y, cond_between n1 x y = if same_pair x y b o then 0 else cond_between n x y) /\
    (forall x, In x (dkeys (node_to_s n1)) <-> In x (dkeys (node_to_s n))) /\
    dget (node_to_s n1) b = dget (node_to_s n) b /\
    (forall x y, dget (s n1) (x, y) = if same_pair x y b o then None else dget (s n) (x, y)) /\
    (forall x, x <> o -> dget (node_to_s n1) x = dget (node_to_s n) x) /\
    dwf (node_to_s n1).
Proof.
  intros I W. set (V := vnet n b ((c, o) :: rest)) in *.
  assert (SV : s V = s n) by reflexivity.
  assert (TV : forall x, dget (node_to_s V) x = if eq_dec x b then Some ((c, o) :: rest) else dget (node_to_s n) x).
  { intros x; unfold V, vnet; cbn. apply dget_dset. }
  assert (Hbo : dget (s n) (b, o) = Some c).
  { rewrite <- SV. apply (star_s I) with (l := (c, o) :: rest); [|left; reflexivity].
    rewrite TV. destruct (eq_dec b b); congruence. }
  assert (Nbo : b <> o). { intros ->. pose proof (s_irr I o) as Z. rewrite SV in Z. congruence. }
  assert (Hob : dget (s n) (o, b) = Some c). { rewrite <- SV. apply (s_sym I). exact Hbo. }
  destruct (s_star I o b) with (r := c) as (lo & Lo & Ilo); [rewrite SV; exact Hob|].
  rewrite TV in Lo. destruct (eq_dec o b) as [->|_]; [congruence|].
  destruct (list_remove1_In _ _ Ilo) as (l1 & l2 & El & Rl).
  assert (Wn : dwf (s n)) by (rewrite <- SV; apply I).
  exists (with_s (with_stars n (dset (node_to_s n) o (l1 ++ l2))) (dremove (dremove (s n) (b, o)) (o, b))).
  assert (SG := fun x y => dget_s_after_drop x y Wn Nbo).
  assert (DEL : drop_resistor n b (c, o) =
     Some (with_s (with_stars n (dset (node_to_s n) o (l1 ++ l2))) (dremove (dremove (s n) (b, o)) (o, b)))).
  { unfold drop_resistor. rewrite Lo, Rl. unfold ddel, dmem; cbn [s with_stars].
    rewrite Hbo. rewrite dget_dremove by exact Wn. destruct (eq_dec (o, b) (b, o)) as [Q|_]; [congruence|].
    rewrite Hob. reflexivity. }
  split; [exact DEL|].
  assert (TG : forall x, dget (dset (dset (node_to_s n) o (l1 ++ l2)) b rest) x =
     if eq_dec x b then Some rest else if eq_dec x o then Some (l1 ++ l2) else dget (node_to_s n) x).
  { intros x; rewrite !dget_dset. reflexivity. }
  split; [|split; [constructor; reflexivity|split; [reflexivity|split; [|split; [|split; [|split; [|split]]]]]]].
  - pose proof (star_nd I o) as NDo. rewrite TV in NDo. destruct (eq_dec o b); [congruence|]. specialize (NDo _ Lo).
    pose proof (star_nd I b) as NDb. rewrite TV in NDb. destruct (eq_dec b b); [|congruence]. specialize (NDb _ eq_refl).
    assert (Perm : Permutation lo ((c, b) :: l1 ++ l2)).
    { rewrite El. symmetry; apply Permutation_middle. }
    assert (NDo' : NoDup (b :: map snd (l1 ++ l2))).
    { eapply Permutation_NoDup; [|exact NDo]. apply (Permutation_map snd) in Perm. exact Perm. }
    constructor; unfold vnet; cbn.
    + apply I.
    + apply I.
    + apply dwf_dremove, dwf_dremove, Wn.
    + apply dwf_dset, dwf_dset, W.
    + apply I.
    + apply I.
    + intros x y q. rewrite !SG, (same_pair_swap y x). destruct (same_pair x y b o); [discriminate|].
      rewrite <- SV. apply I.
    + intros x. rewrite SG. destruct (same_pair x x b o); [reflexivity|]. rewrite <- SV; apply I.
    + intros x y q. rewrite SG. destruct (same_pair x y b o); [discriminate|]. rewrite <- SV.
      intros Q; apply (s_ref I) in Q; exact Q.
    + intros x y x' y' q. rewrite !SG.
      destruct (same_pair x y b o); [discriminate|]. destruct (same_pair x' y' b o); [discriminate|].
      rewrite <- SV. intros; eapply (s_sep I); eauto.
    + intros x y q. rewrite SG, TG. destruct (same_pair x y b o) eqn:SP; [discriminate|].
      rewrite <- SV. intros Q. destruct (s_star I _ _ Q) as (l & L & J). rewrite TV in L.
      assert (NP : ~ ((x = b /\ y = o) \/ (x = o /\ y = b))) by (rewrite <- same_pair_spec; congruence).
      destruct (eq_dec x b) as [->|Nx].
      * injection L as <-. exists rest; split; [reflexivity|]. destruct J as [J|J]; [|exact J].
        exfalso. apply NP. injection J; auto.
      * destruct (eq_dec x o) as [->|No]; [|eauto]. exists (l1 ++ l2); split; [reflexivity|].
        rewrite Lo in L; injection L as <-. apply (Permutation_in _ Perm) in J. destruct J as [J|J]; [|exact J].
        exfalso. apply NP. injection J; auto.
    + intros x l q y. rewrite SG, TG. intros L J.
      cut (dget (s n) (x, y) = Some q /\ same_pair x y b o = false); [intros [O1 O2]; rewrite O2; exact O1|].
      destruct (eq_dec x b) as [->|Nx]; [|destruct (eq_dec x o) as [->|No]].
      * injection L as <-. split.
        -- rewrite <- SV. apply (star_s I) with (l := (c, o) :: rest); [rewrite TV; destruct (eq_dec b b); congruence|right; exact J].
        -- destruct (same_pair b y b o) eqn:SP; [|reflexivity]. apply same_pair_spec in SP.
           destruct SP as [[_ ->]|[? ->]]; [|congruence]. inversion NDb; subst.
           exfalso; apply H1. apply (in_map snd) in J; exact J.
      * injection L as <-. split.
        -- rewrite <- SV. apply (star_s I) with (l := lo); [rewrite TV; destruct (eq_dec o b); congruence|].
           apply (Permutation_in _ (Permutation_sym Perm)). right; exact J.
        -- destruct (same_pair o y b o) eqn:SP; [|reflexivity]. apply same_pair_spec in SP.
           destruct SP as [[? _]|[_ ->]]; [congruence|]. inversion NDo'; subst.
           exfalso; apply H1. apply (in_map snd) in J; exact J.
      * split.
        -- rewrite <- SV. apply (star_s I) with (l := l); [rewrite TV; destruct (eq_dec x b); congruence|exact J].
        -- destruct (same_pair x y b o) eqn:SP; [|reflexivity]. apply same_pair_spec in SP. destruct SP as [[? _]|[? _]]; congruence.
    + intros x l. rewrite TG. destruct (eq_dec x b) as [->|Nx]; [|destruct (eq_dec x o) as [->|No]].
      * intros [= <-]. inversion NDb; assumption.
      * intros [= <-]. inversion NDo'; assumption.
      * intros L. apply (star_nd I x). rewrite TV. destruct (eq_dec x b); congruence.
    + intros x l. rewrite TG. destruct (eq_dec x b) as [->|Nx]; [|destruct (eq_dec x o) as [->|No]]; intros L.
      * apply (star_loc I b (l := (c, o) :: rest)). rewrite TV; destruct (eq_dec b b); congruence.
      * apply (star_loc I o (l := lo)). rewrite TV; destruct (eq_dec o b); congruence.
      * apply (star_loc I x (l := l)). rewrite TV; destruct (eq_dec x b); congruence.
  - intros x y. unfold cond_between; cbn. rewrite SG. destruct (same_pair x y b o); reflexivity.
  - intros x. cbn. rewrite dkeys_dset_in. split; [|auto]. intros [->|J]; [|exact J].
    eapply dget_Some_key; eauto.
  - cbn. apply dget_dset_other; auto.
  - intros x y; cbn. apply SG.
  - intros x N; cbn. apply dget_dset_other; auto.
  - cbn. apply dwf_dset, W.
Qed.

Lemma dset_same {K V} `{EqDec K} (d : dict K V) k v : dget d k = Some v -> dset d k v = d.
Proof.
  induction d as [|[k' v'] t IH]; simpl; [discriminate|].
  destruct (eq_dec k k') as [->|N]; intros E; [congruence|]. rewrite IH by exact E; reflexivity.
Qed.
Lemma vnet_id n b star : dget (node_to_s n) b = Some star -> vnet n b star = n.
Proof. intros E; unfold vnet; rewrite dset_same by exact E. destruct n; reflexivity. Qed.

Lemma star_empty_no_s n b : Inv n -> dget (node_to_s n) b = Some [] ->
  forall x, dget (s n) (b, x) = None /\ dget (s n) (x, b) = None.
Proof.
  intros I E x.
  assert (A : dget (s n) (b, x) = None).
  { destruct (dget (s n) (b, x)) as [r|] eqn:F; [|reflexivity].
    destruct (s_star I _ _ F) as (l & L & J). rewrite E in L; injection L as <-; destruct J. }
  split; [exact A|]. destruct (dget (s n) (x, b)) eqn:F; [|reflexivity]. apply (s_sym I) in F; congruence.
Qed.

Lemma drop_resistors_ok star : forall n b, Inv (vnet n b star) -> dwf (node_to_s n) ->
  exists n1, drop_resistors n b star = Some n1 /\ Inv (vnet n1 b []) /\ same_frame n n1 /\
    heap n1 = heap n /\
    (forall x y, x <> b -> y <> b -> cond_between n1 x y = cond_between n x y) /\
    (forall x, In x (dkeys (node_to_s n1)) <-> In x (dkeys (node_to_s n))) /\
    dwf (node_to_s n1).
Proof.
  induction star as [|[c o] rest IH]; intros n b I W.
  - exists n. split; [reflexivity|]. split; [exact I|]. split; [apply same_frame_refl|].
    split; [reflexivity|]. split; [reflexivity|]. split; [reflexivity|exact W].
  - destruct (drop_resistor_ok I W) as (n1 & D & I1 & F1 & H1 & C1 & K1 & _ & _ & _ & W1).
    destruct (IH n1 b I1 W1) as (n2 & D2 & I2 & F2 & H2 & C2 & K2 & W2).
    exists n2. split; [cbn; rewrite D; exact D2|]. split; [exact I2|].
    split; [eapply same_frame_trans; eauto|]. split; [congruence|]. split; [|split; [|exact W2]].
    + intros x y Nx Ny. rewrite C2, C1 by auto.
      destruct (same_pair x y b o) eqn:SP; [|reflexivity]. apply same_pair_spec in SP.
      destruct SP as [[? _]|[_ ?]]; contradiction.
    + intros x. rewrite K2, K1; reflexivity.
Qed.

(** what is left after node [b] was taken out of the tables *)
Record node_gone (n : net) (b : nid) (n1 : net) : Prop := {
  ng_inv : Inv n1;
  ng_locs : forall x, dget (locations n1) x = if eq_dec x b then None else dget (locations n) x;
  ng_list : node_list n1 = remove Nat.eq_dec b (node_list n);
  ng_next : next_id n1 = next_id n;
  ng_prec : precious n1 = precious n;
  ng_names : node_names n1 = node_names n;
  ng_keys : forall x, In x (dkeys (node_to_s n1)) <-> x <> b /\ In x (dkeys (node_to_s n));
  ng_cond : forall x, cond_between n1 b x = 0 /\ cond_between n1 x b = 0 }.

Lemma dkeys_dremove_remove {V} (d : dict nid V) b : dwf d ->
  dkeys (dremove d b) = remove Nat.eq_dec b (dkeys d).
Proof.
  unfold dwf, dkeys; induction d as [|[k v] t IH]; simpl; intros W; [reflexivity|].
  inversion W; subst. destruct (eq_dec b k) as [E|N].
  - destruct (Nat.eq_dec b k) as [_|N]; [|congruence]. subst b. symmetry; apply notin_remove; assumption.
  - destruct (Nat.eq_dec b k) as [E|_]; [congruence|]. simpl. rewrite IH by assumption; reflexivity.
Qed.

Lemma drop_node_ok n b : Inv (vnet n b []) -> dwf (node_to_s n) -> In b (dkeys (node_to_s n)) ->
  exists n1, drop_node n b = Some n1 /\ node_gone n b n1 /\ s n1 = s n /\ heap n1 = heap n.
Proof.
  intros I W J. set (V := vnet n b []) in *.
  assert (TV : forall x, dget (node_to_s V) x = if eq_dec x b then Some [] else dget (node_to_s n) x).
  { intros x; unfold V, vnet; cbn. apply dget_dset. }
  assert (Eb : dget (node_to_s V) b = Some []) by (rewrite TV; destruct (eq_dec b b); congruence).
  destruct (star_loc I _ Eb) as [p P]. cbn in P.
  pose proof (proj2 (i_nl I p b) P) as Q. cbn in Q.
  pose proof (star_empty_no_s _ I Eb) as NS. cbn in NS.
  exists (with_nodes (with_stars n (dremove (node_to_s n) b)) (dremove (nodes n) p) (dremove (locations n) b)).
  split; [|split; [|split; reflexivity]].
  - unfold drop_node, ddel. rewrite (proj2 (dmem_true _ _) J), P.
    unfold dmem. rewrite Q, P. reflexivity.
  - pose proof (wf_nodes I) as WN. pose proof (wf_locs I) as WL. cbn in WN, WL.
    assert (DS : forall x, dget (dremove (node_to_s n) b) x = if eq_dec x b then None else dget (node_to_s n) x).
    { intros x; apply dget_dremove, W. }
    assert (Old : forall x l, dget (dremove (node_to_s n) b) x = Some l -> x <> b /\ dget (node_to_s V) x = Some l).
    { intros x l. rewrite DS, TV. destruct (eq_dec x b); [discriminate|auto]. }
    constructor; cbn.
    + constructor; cbn.
      * apply dwf_dremove, WN.
      * apply dwf_dremove, WL.
      * apply I.
      * apply dwf_dremove, W.
      * intros q i. rewrite !dget_dremove by assumption.
        destruct (eq_dec q p) as [->|Nq], (eq_dec i b) as [->|Ni]; try (split; congruence).
        -- split; [discriminate|]. intros H; apply (i_nl I) in H. cbn in H; congruence.
        -- split; [|discriminate]. intros H; apply (i_nl I) in H. cbn in H; congruence.
        -- apply I.
      * intros i q. rewrite dget_dremove by assumption. destruct (eq_dec i b); [discriminate|].
        intros H; apply (i_lt I) in H; exact H.
      * apply I.
      * apply I.
      * intros x y r H. apply (s_ref I) in H. exact H.
      * apply I.
      * intros x y r H. destruct (s_star I _ _ H) as (l & L & Jl). exists l; split; [|exact Jl].
        rewrite TV in L. rewrite DS. destruct (eq_dec x b) as [->|]; [|exact L].
        destruct (NS y) as [Z _]; congruence.
      * intros x l r y L Jl. apply Old in L. destruct L as [_ L]. apply (star_s I _ _ _ L Jl).
      * intros x l L. apply Old in L. destruct L as [_ L]. apply (star_nd I _ L).
      * intros x l L. apply Old in L. destruct L as [N L]. destruct (star_loc I _ L) as [q Hq]. exists q.
        cbn in Hq. rewrite dget_dremove by assumption. destruct (eq_dec x b); [contradiction|exact Hq].
    + intros x. apply dget_dremove, WL.
    + unfold node_list; cbn. apply dkeys_dremove_remove, WL.
    + reflexivity.
    + reflexivity.
    + reflexivity.
    + intros x. apply dkeys_dremove_in, W.
    + intros x. unfold cond_between; cbn. destruct (NS x) as [-> ->]. auto.
Qed.

Lemma remove_node_absent n i : ~ In i (dkeys (node_to_s n)) -> remove_node n i = Some n.
Proof. intros N. unfold remove_node. apply dget_None in N. rewrite N; reflexivity. Qed.

Lemma remove_node_ok n i : Inv n -> In i (dkeys (node_to_s n)) ->
  exists n1, remove_node n i = Some n1 /\ node_gone n i n1 /\ heap n1 = heap n /\
    (forall x y, x <> i -> y <> i -> cond_between n1 x y = cond_between n x y).
Proof.
  intros I J. destruct (dkeys_dget _ _ J) as [star E]. unfold remove_node; rewrite E.
  destruct (@drop_resistors_ok star n i) as (n1 & D & I1 & F & H & C & K & W).
  { rewrite vnet_id by exact E. exact I. } { apply I. }
  rewrite D. destruct (drop_node_ok I1 W) as (n2 & D2 & G & S2 & H2); [apply K, J|].
  exists n2. split; [exact D2|]. split; [|split].
  - destruct G; constructor; auto.
    + intros x; rewrite ng_locs0. rewrite (sf_locs F); reflexivity.
    + rewrite ng_list0. unfold node_list; rewrite (sf_locs F); reflexivity.
    + rewrite (sf_next F) in ng_next0; auto.
    + rewrite (sf_prec F) in ng_prec0; auto.
    + rewrite (sf_names F) in ng_names0; auto.
    + intros x; rewrite ng_keys0, K; tauto.
  - congruence.
  - intros x y Nx Ny. rewrite <- C by auto. unfold cond_between. rewrite S2, H2; reflexivity.
Qed.
