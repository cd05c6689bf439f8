(** connect_nodes: never raises on consistent networks and contracts two nodes. *)
From Coq Require Import String Permutation.
From Verif Require Import PyBase RN_Model RN_Spec RN_Inv RN_Ops.
Set Implicit Arguments.
Local Open Scope Qc_scope.

Section DictComm.
Context {K V : Type} `{EqDec K}.
Lemma dremove_dset_comm (d : dict K V) k v k' : k <> k' ->
  dremove (dset d k v) k' = dset (dremove d k') k v.
Proof.
  intros N; induction d as [|[k1 v1] t IH]; simpl.
  - destruct (eq_dec k' k); congruence.
  - destruct (eq_dec k k1) as [->|N1].
    + simpl. destruct (eq_dec k' k1); [congruence|]. simpl. destruct (eq_dec k1 k1); congruence.
    + simpl. destruct (eq_dec k' k1) as [->|N2]; [reflexivity|]. simpl.
      destruct (eq_dec k k1); [congruence|]. rewrite IH; reflexivity.
Qed.
Lemma dset_dset_comm (d : dict K V) k v k' v' : k <> k' -> In k (dkeys d) ->
  dset (dset d k v) k' v' = dset (dset d k' v') k v.
Proof.
  intros N J; induction d as [|[k1 v1] t IH]; [destruct J|]. simpl.
  destruct (eq_dec k k1) as [->|N1]; simpl.
  - destruct (eq_dec k' k1); [congruence|]. simpl. destruct (eq_dec k1 k1); congruence.
  - destruct (eq_dec k' k1) as [->|N2]; simpl.
    + destruct (eq_dec k k1); congruence.
    + destruct (eq_dec k k1); [congruence|]. rewrite IH; [reflexivity|]. destruct J; [simpl in *; congruence|assumption].
Qed.
Lemma dset_dset_same (d : dict K V) k v v' : dset (dset d k v) k v' = dset d k v'.
Proof.
  induction d as [|[k1 v1] t IH]; simpl.
  - destruct (eq_dec k k); congruence.
  - destruct (eq_dec k k1) as [->|N]; simpl.
    + destruct (eq_dec k1 k1); congruence.
    + destruct (eq_dec k k1); [congruence|]. rewrite IH; reflexivity.
Qed.
End DictComm.

Lemma star_append_eq st a e :
  star_append st a e = dset st a (match dget st a with Some l => l | None => [] end ++ [e]).
Proof. unfold star_append; destruct (dget st a); reflexivity. Qed.

Lemma star_append_dset_comm st a e b l : a <> b -> In b (dkeys st) ->
  star_append (dset st b l) a e = dset (star_append st a e) b l.
Proof.
  intros N J. rewrite !star_append_eq, dget_dset_other by exact N. apply dset_dset_comm; auto.
Qed.

Lemma list_remove1_app {A} `{EqDec A} (l l' m : list A) x : list_remove1 l x = Some l' ->
  list_remove1 (l ++ m) x = Some (l' ++ m).
Proof.
  revert l'; induction l as [|y t IH]; simpl; intros l'; [discriminate|].
  destruct (eq_dec x y); [congruence|]. destruct (list_remove1 t x) eqn:E; [|discriminate].
  intros [= <-]. rewrite (IH _ eq_refl). reflexivity.
Qed.

(** adding the resistor (a,o) and then dropping (b,o) is the same as the other order *)
Lemma drop_add_comm n a b c o n1 : a <> b -> o <> b -> o <> a ->
  In o (dkeys (node_to_s n)) ->
  drop_resistor n b (c, o) = Some n1 ->
  (forall x y, dget (s n1) (x, y) = if same_pair x y b o then None else dget (s n) (x, y)) ->
  drop_resistor (add_cond_ref n a o c) b (c, o) = Some (add_cond_ref n1 a o c).
Proof.
  intros Nab Nob Noa Jo D SG.
  assert (E1 : dget (s n1) (a, o) = dget (s n) (a, o)).
  { rewrite SG. destruct (same_pair a o b o) eqn:SP; [|reflexivity]. apply same_pair_spec in SP.
    destruct SP as [[? _]|[? ?]]; congruence. }
  unfold add_cond_ref. rewrite E1. revert D. unfold drop_resistor.
  destruct (dkeys_dget _ _ Jo) as [lo Lo]. rewrite Lo.
  destruct (list_remove1 lo (c, b)) as [l'|] eqn:R; [|discriminate].
  unfold ddel. cbn [s with_stars].
  destruct (dmem (s n) (b, o)) eqn:M1; [|discriminate].
  destruct (dmem (dremove (s n) (b, o)) (o, b)) eqn:M2; [|discriminate]. intros [= <-].
  destruct (dget (s n) (a, o)) as [r0|] eqn:F.
  - unfold add_parallel. cbn [node_to_s s heap]. rewrite Lo, R. cbn [with_stars s].
    rewrite M1, M2. reflexivity.
  - cbn [node_to_s s with_stars with_s]. rewrite dget_star_append.
    destruct (eq_dec o o) as [_|]; [|congruence]. rewrite dget_star_append.
    destruct (eq_dec o a) as [|_]; [congruence|]. rewrite Lo.
    rewrite (list_remove1_app _ _ _ R). cbn [s with_stars with_s].
    assert (P1 : dmem (dset (dset (s n) (a, o) c) (o, a) c) (b, o) = true).
    { apply dmem_true. rewrite !dkeys_dset_in. right; right. apply dmem_true; exact M1. }
    rewrite P1. rewrite !dremove_dset_comm by congruence.
    assert (P2 : dmem (dset (dset (dremove (s n) (b, o)) (a, o) c) (o, a) c) (o, b) = true).
    { apply dmem_true. rewrite !dkeys_dset_in. right; right. apply dmem_true; exact M2. }
    rewrite P2.
    unfold with_s, with_stars; cbn. do 2 f_equal.
    rewrite !star_append_eq, !dget_dset.
    destruct (eq_dec o a); [congruence|]. destruct (eq_dec a o); [congruence|].
    destruct (eq_dec o o); [|congruence]. rewrite Lo.
    rewrite dset_dset_same. rewrite (fun d v v2 => @dset_dset_comm _ _ _ d o v a v2) by auto.
    rewrite dset_dset_same. reflexivity.
Qed.

Lemma vnet_add_cond_ref n a o c b rest : a <> b -> o <> b -> In b (dkeys (node_to_s n)) ->
  vnet (add_cond_ref n a o c) b rest = add_cond_ref (vnet n b rest) a o c.
Proof.
  intros Na No J. unfold add_cond_ref, vnet; cbn. destruct (dget (s n) (a, o)); [reflexivity|].
  unfold with_s, with_stars; cbn. f_equal.
  rewrite <- star_append_dset_comm; auto.
  - f_equal. rewrite <- star_append_dset_comm; auto.
  - apply dkeys_star_append; auto.
Qed.

Lemma dwf_add_cond_ref_stars n a b r : dwf (node_to_s n) -> dwf (node_to_s (add_cond_ref n a b r)).
Proof.
  intros W; unfold add_cond_ref; destruct (dget _ _); cbn; [exact W|].
  apply dwf_star_append, dwf_star_append, W.
Qed.
Lemma add_cond_ref_keys n a b r x :
  In x (dkeys (node_to_s n)) -> In x (dkeys (node_to_s (add_cond_ref n a b r))).
Proof.
  intros W; unfold add_cond_ref; destruct (dget _ _); cbn; [exact W|].
  rewrite !dkeys_star_append; auto.
Qed.

Lemma cond_vnet n b rest x y : cond_between (vnet n b rest) x y = cond_between n x y.
Proof. reflexivity. Qed.

Lemma eqb_case {A} (x y : nat) (P Q : A) : (if Nat.eqb x y then P else Q) = if Nat.eq_dec x y then P else Q.
Proof. destruct (Nat.eqb_spec x y), (Nat.eq_dec x y); congruence. Qed.

Lemma move_resistors_ok star : forall n a b,
  Inv (vnet n b star) -> dwf (node_to_s n) -> In b (dkeys (node_to_s n)) ->
  a <> b -> In a (node_list n) ->
  exists n1, move_resistors n a b star = Some n1 /\ Inv (vnet n1 b []) /\ same_frame n n1 /\
    (forall x y, x <> b -> y <> b ->
       cond_between n1 x y = cond_between n x y
         + (if Nat.eqb x a && negb (Nat.eqb y a) then cond_between n b y else 0)
         + (if Nat.eqb y a && negb (Nat.eqb x a) then cond_between n b x else 0)) /\
    dwf (node_to_s n1) /\
    (forall x, In x (dkeys (node_to_s n)) -> In x (dkeys (node_to_s n1))) /\
    (forall x, In x (dkeys (node_to_s n1)) -> x = a \/ In x (dkeys (node_to_s n))).
Proof.
  induction star as [|[c o] rest IH]; intros n a b I W Kb Nab La.
  - exists n. split; [reflexivity|]. split; [exact I|]. split; [apply same_frame_refl|].
    split; [|split; [exact W|split; auto]].
    intros x y Nx Ny.
    assert (Z : forall z, cond_between n b z = 0).
    { intros z. assert (Eb : dget (node_to_s (vnet n b [])) b = Some []) by (unfold vnet; cbn; apply dget_dset_same).
      destruct (star_empty_no_s _ I Eb z) as [E _]. unfold cond_between. cbn in E. rewrite E; reflexivity. }
    rewrite !Z. destruct (_ && _), (_ && _); ring.
  - destruct (drop_resistor_ok I W) as (n1 & D & I1 & F1 & H1 & C1 & K1 & Sb & SG & TG & W1).
    set (V := vnet n b ((c, o) :: rest)) in *.
    assert (Hbo : dget (s n) (b, o) = Some c).
    { apply (star_s I) with (l := (c, o) :: rest); [|left; reflexivity]. unfold V, vnet; cbn. apply dget_dset_same. }
    assert (Nob : o <> b). { intros ->. pose proof (s_irr I b) as Z. cbn in Z. congruence. }
    assert (Lc : (c < List.length (heap n))%nat) by (apply (s_ref I) in Hbo; exact Hbo).
    assert (Gc : hget (heap n) c = cond_between n b o) by (unfold cond_between; rewrite Hbo; reflexivity).
    assert (Ko : In o (dkeys (node_to_s n))).
    { assert (Hob : dget (s V) (o, b) = Some c) by (apply (s_sym I); exact Hbo).
      destruct (s_star I _ _ Hob) as (l & L & _). unfold V, vnet in L; cbn in L.
      rewrite dget_dset_other in L by exact Nob. eapply dget_Some_key; eauto. }
    assert (Lo : In o (node_list n)).
    { destruct (s_loc (n := V) b o I Hbo) as [_ Q]. exact Q. }
    assert (U : unused (vnet n1 b rest) c).
    { intros x y E. unfold vnet in E; cbn in E. rewrite SG in E. destruct (same_pair x y b o) eqn:SP; [discriminate|].
      destruct (s_sep I _ _ _ _ E Hbo) as [[-> ->]|[-> ->]].
      - assert (same_pair b o b o = true) by (apply same_pair_spec; auto). congruence.
      - assert (same_pair o b b o = true) by (apply same_pair_spec; auto). congruence. }
    set (n2 := if Nat.eq_dec o a then n1 else add_cond_ref n1 a o c).
    assert (D2 : drop_resistor (if Nat.eq_dec o a then n else add_cond_ref n a o c) b (c, o) = Some n2).
    { unfold n2. destruct (Nat.eq_dec o a) as [->|Noa]; [exact D|].
      apply drop_add_comm; auto. }
    assert (Kb1 : In b (dkeys (node_to_s n1))) by (apply K1; exact Kb).
    assert (I2 : Inv (vnet n2 b rest)).
    { unfold n2. destruct (Nat.eq_dec o a) as [->|Noa]; [exact I1|].
      rewrite vnet_add_cond_ref by auto. apply Inv_add_cond_ref; auto.
      - unfold node_list, vnet; cbn. rewrite (sf_locs F1). exact La.
      - unfold node_list, vnet; cbn. rewrite (sf_locs F1). exact Lo.
      - unfold vnet; cbn. rewrite H1; exact Lc. }
    assert (C2 : forall x y, cond_between n2 x y = (if same_pair x y b o then 0 else cond_between n x y)
               + (if Nat.eq_dec o a then 0 else if same_pair x y a o then cond_between n b o else 0)).
    { intros x y. rewrite <- C1. unfold n2. destruct (Nat.eq_dec o a) as [->|Noa]; [ring|].
      change (cond_between (add_cond_ref n1 a o c) x y)
        with (cond_between (vnet (add_cond_ref n1 a o c) b rest) x y).
      rewrite vnet_add_cond_ref by auto. rewrite cond_add_cond_ref by auto.
      rewrite cond_vnet. unfold vnet; cbn. rewrite H1, Gc. reflexivity. }
    assert (F2 : same_frame n n2).
    { unfold n2. destruct (Nat.eq_dec o a); [exact F1|]. eapply same_frame_trans; [exact F1|apply add_cond_ref_frame]. }
    destruct (IH n2 a b I2) as (n3 & M & I3 & F3 & C3 & W3 & K3 & K3'); auto.
    { unfold n2. destruct (Nat.eq_dec o a); [exact W1|]. apply dwf_add_cond_ref_stars, W1. }
    { unfold n2. destruct (Nat.eq_dec o a); [exact Kb1|]. apply add_cond_ref_keys, Kb1. }
    { unfold node_list; rewrite (sf_locs F2); exact La. }
    exists n3. split; [cbn; rewrite D2; exact M|]. split; [exact I3|].
    split; [eapply same_frame_trans; eauto|]. split; [|split; [exact W3|split]].
    + intros x y Nx Ny. rewrite C3 by auto. rewrite !C2.
      unfold same_pair. 
      repeat match goal with |- context [Nat.eqb ?u ?v] => destruct (Nat.eqb_spec u v) end;
      subst; cbn; try congruence; destruct (Nat.eq_dec _ _); subst; try congruence; try ring.
    + intros x J. apply K3. unfold n2. destruct (Nat.eq_dec o a); [apply K1, J|]. apply add_cond_ref_keys, K1, J.
    + intros x J. apply K3' in J. destruct J as [J|J]; [auto|]. unfold n2 in J.
      destruct (Nat.eq_dec o a); [right; apply K1, J|]. unfold add_cond_ref in J.
      destruct (dget (s n1) (a, o)); cbn in J; [right; apply K1, J|].
      rewrite !dkeys_star_append in J. destruct J as [->|[->|J]]; auto. right; apply K1, J.
Qed.

Lemma connect_nodes_ok n a b : Inv n -> a <> b -> In a (node_list n) -> In b (dkeys (node_to_s n)) ->
  exists n1, connect_nodes n a b = Some n1 /\ Inv n1 /\
    (forall x, dget (locations n1) x = if eq_dec x b then None else dget (locations n) x) /\
    node_list n1 = remove Nat.eq_dec b (node_list n) /\
    next_id n1 = next_id n /\ precious n1 = precious n /\ node_names n1 = node_names n /\
    (forall x, cond_between n1 b x = 0 /\ cond_between n1 x b = 0) /\
    (forall x y, x <> b -> y <> b ->
       cond_between n1 x y = cond_between n x y
         + (if Nat.eqb x a && negb (Nat.eqb y a) then cond_between n b y else 0)
         + (if Nat.eqb y a && negb (Nat.eqb x a) then cond_between n b x else 0)).
Proof.
  intros I N La J. destruct (dkeys_dget _ _ J) as [star E]. unfold connect_nodes; rewrite E.
  destruct (@move_resistors_ok star n a b) as (n1 & D & I1 & F & C & W & K & K'); auto.
  { rewrite vnet_id by exact E. exact I. } { apply I. }
  rewrite D. destruct (drop_node_ok I1 W) as (n2 & D2 & G & S2 & H2); [apply K, J|].
  exists n2. split; [exact D2|]. split; [apply G|]. split; [|split; [|split; [|split; [|split; [|split]]]]].
  - intros x; rewrite (ng_locs G), (sf_locs F); reflexivity.
  - rewrite (ng_list G). unfold node_list; rewrite (sf_locs F); reflexivity.
  - rewrite (ng_next G). apply F.
  - rewrite (ng_prec G). apply F.
  - rewrite (ng_names G). apply F.
  - apply G.
  - intros x y Nx Ny. rewrite <- C by auto. unfold cond_between. rewrite S2, H2; reflexivity.
Qed.
Lemma connect_nodes_absent n a b : ~ In b (dkeys (node_to_s n)) -> connect_nodes n a b = Some n.
Proof. intros N. unfold connect_nodes. apply dget_None in N. rewrite N; reflexivity. Qed.
