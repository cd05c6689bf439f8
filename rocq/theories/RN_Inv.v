(** The consistency invariant of resistor networks and its preservation. *)
From Coq Require Import String Permutation.
From Verif Require Import PyBase RN_Model RN_Spec.
Set Implicit Arguments.
Local Open Scope Qc_scope.

#[export] Hint Unfold with_s with_stars : core.
Arguments hget : simpl never.
Arguments hset : simpl never.
Arguments star_append : simpl never.
Arguments dkeys : simpl never.
Arguments drop_resistor : simpl never.
Arguments add_cond_ref : simpl never.

Record Inv (n : net) : Prop := {
  wf_nodes : dwf (nodes n);
  wf_locs : dwf (locations n);
  wf_s : dwf (s n);
  wf_stars : dwf (node_to_s n);
  i_nl : forall p i, dget (nodes n) p = Some i <-> dget (locations n) i = Some p;
  i_lt : forall i p, dget (locations n) i = Some p -> (i < next_id n)%nat;
  s_sym : forall a b r, dget (s n) (a, b) = Some r -> dget (s n) (b, a) = Some r;
  s_irr : forall a, dget (s n) (a, a) = None;
  s_ref : forall a b r, dget (s n) (a, b) = Some r -> (r < List.length (heap n))%nat;
  s_sep : forall a b c d r, dget (s n) (a, b) = Some r -> dget (s n) (c, d) = Some r ->
            (a = c /\ b = d) \/ (a = d /\ b = c);
  s_star : forall a b r, dget (s n) (a, b) = Some r ->
            exists l, dget (node_to_s n) a = Some l /\ In (r, b) l;
  star_s : forall a l r b, dget (node_to_s n) a = Some l -> In (r, b) l -> dget (s n) (a, b) = Some r;
  star_nd : forall a l, dget (node_to_s n) a = Some l -> NoDup (map snd l);
  star_loc : forall a l, dget (node_to_s n) a = Some l -> exists p, dget (locations n) a = Some p }.

Ltac des_eq := repeat match goal with
  | |- context [eq_dec ?x ?y] => destruct (eq_dec x y)
  | H : context [eq_dec ?x ?y] |- _ => destruct (eq_dec x y)
  end.

Lemma Inv_empty : Inv empty_net.
Proof.
  constructor; cbn; try (constructor; fail); try discriminate; try reflexivity.
  - intros; split; discriminate.
Qed.

(** ** heap *)
Lemma hset_length h r q : List.length (hset h r q) = List.length h.
Proof. revert r; induction h as [|x h IH]; intros [|r]; simpl; auto. Qed.
Lemma hget_hset h r r' q : (r < List.length h)%nat ->
  hget (hset h r q) r' = if Nat.eq_dec r' r then q else hget h r'.
Proof.
  unfold hget; revert r r'; induction h as [|x h IH]; intros r r' L; simpl in *; [lia|].
  destruct r as [|r], r' as [|r']; simpl; try reflexivity.
  rewrite IH by lia. destruct (Nat.eq_dec r' r), (Nat.eq_dec (S r') (S r)); congruence.
Qed.
Lemma hget_app h q r : (r < List.length h)%nat -> hget (h ++ [q]) r = hget h r.
Proof. intros L; unfold hget; apply app_nth1; exact L. Qed.
Lemma hget_app_last h q : hget (h ++ [q]) (List.length h) = q.
Proof. unfold hget; rewrite app_nth2, Nat.sub_diag; [reflexivity|lia]. Qed.

(** ** symmetric, irreflexive conductance *)
Lemma cond_sym n a b : Inv n -> cond_between n a b = cond_between n b a.
Proof.
  intros I; unfold cond_between. destruct (dget (s n) (a, b)) as [r|] eqn:E.
  - rewrite (s_sym I _ _ E); reflexivity.
  - destruct (dget (s n) (b, a)) as [r|] eqn:E'; [|reflexivity].
    apply (s_sym I) in E'. congruence.
Qed.
Lemma cond_irr n a : Inv n -> cond_between n a a = 0.
Proof. intros I; unfold cond_between; rewrite (s_irr I); reflexivity. Qed.

Lemma s_loc n a b r : Inv n -> dget (s n) (a, b) = Some r -> In a (node_list n) /\ In b (node_list n).
Proof.
  intros I E. split.
  - destruct (s_star I _ _ E) as (l & L & _). destruct (star_loc I _ L) as [p P].
    eapply dget_Some_key; eauto.
  - apply (s_sym I) in E. destruct (s_star I _ _ E) as (l & L & _).
    destruct (star_loc I _ L) as [p P]. eapply dget_Some_key; eauto.
Qed.
Lemma cond_outside n a b : Inv n -> ~ In a (node_list n) -> cond_between n a b = 0.
Proof.
  intros I N; unfold cond_between. destruct (dget (s n) (a, b)) as [r|] eqn:E; [|reflexivity].
  apply (s_loc _ _ I) in E. tauto.
Qed.

(** ** node_id, name, mark_precious, new_cond *)
Lemma Inv_node_id n p : Inv n -> Inv (fst (node_id n p)).
Proof.
  intros I; unfold node_id. destruct (dget (nodes n) p) as [i|] eqn:E; [exact I|]. cbn.
  assert (FL : dget (locations n) (next_id n) = None).
  { destruct (dget (locations n) (next_id n)) eqn:F; [|reflexivity]. apply (i_lt I) in F. lia. }
  constructor; cbn.
  - apply dwf_dset, wf_nodes, I.
  - apply dwf_dset, wf_locs, I.
  - apply I.
  - apply I.
  - intros q i. rewrite !dget_dset.
    destruct (eq_dec q p) as [->|Nq], (eq_dec i (next_id n)) as [->|Ni].
    + tauto.
    + split; intros H; [congruence|]. apply (i_nl I) in H; congruence.
    + split; intros H; [|congruence]. apply (i_nl I) in H; congruence.
    + apply I.
  - intros i q. rewrite dget_dset. destruct (eq_dec i (next_id n)); [lia|].
    intros H; apply (i_lt I) in H; lia.
  - apply I.
  - apply I.
  - apply I.
  - apply I.
  - apply I.
  - apply I.
  - apply I.
  - intros a l L. destruct (star_loc I _ L) as [q Q]. exists q. rewrite dget_dset.
    destruct (eq_dec a (next_id n)); [congruence|exact Q].
Qed.

Lemma Inv_ext n n' : nodes n' = nodes n -> locations n' = locations n -> s n' = s n ->
  node_to_s n' = node_to_s n -> next_id n' = next_id n -> heap n' = heap n -> Inv n -> Inv n'.
Proof.
  destruct n, n'; cbn; intros; subst.
  match goal with H : Inv _ |- _ => destruct H; constructor; cbn in *; auto end.
Qed.
Lemma Inv_set_name n i nm : Inv n -> Inv (set_name n i nm).
Proof. apply Inv_ext; reflexivity. Qed.
Lemma Inv_mark n i : Inv n -> Inv (mark_precious n i).
Proof. apply Inv_ext; reflexivity. Qed.

Lemma Inv_new_cond n g : Inv n -> Inv (fst (new_cond n g)).
Proof.
  intros I; unfold new_cond; cbn. constructor; cbn; try apply I.
  intros a b r E; apply (s_ref I) in E. rewrite app_length; simpl; lia.
Qed.
Lemma cond_new_cond n g a b : Inv n -> cond_between (fst (new_cond n g)) a b = cond_between n a b.
Proof.
  intros I; unfold cond_between; cbn. destruct (dget (s n) (a, b)) eqn:E; [|reflexivity].
  apply hget_app. eapply s_ref; eauto.
Qed.

(** ** add_cond *)
Lemma dget_star_append st a e x :
  dget (star_append st a e) x =
  if eq_dec x a then Some (match dget st a with Some l => l | None => [] end ++ [e]) else dget st x.
Proof. unfold star_append. destruct (dget st a) eqn:E; rewrite dget_dset; des_eq; auto. Qed.
Lemma dwf_star_append st a e : dwf st -> dwf (star_append st a e).
Proof. unfold star_append; destruct (dget st a); apply dwf_dset. Qed.

(** [r] is not yet used in the network *)
Definition unused (n : net) (r : ref) : Prop := forall a b, dget (s n) (a, b) <> Some r.

Lemma same_pair_spec x y a b :
  same_pair x y a b = true <-> (x = a /\ y = b) \/ (x = b /\ y = a).
Proof. unfold same_pair. rewrite orb_true_iff, !andb_true_iff, !Nat.eqb_eq. tauto. Qed.
Lemma same_pair_swap x y a b : same_pair x y a b = same_pair y x a b.
Proof. unfold same_pair. destruct (Nat.eqb x a), (Nat.eqb x b), (Nat.eqb y a), (Nat.eqb y b); reflexivity. Qed.


Lemma Inv_add_cond_ref n a b r : Inv n -> a <> b ->
  In a (node_list n) -> In b (node_list n) ->
  (r < List.length (heap n))%nat -> unused n r -> Inv (add_cond_ref n a b r).
Proof.
  intros I Nab La Lb Lr U. unfold add_cond_ref. destruct (dget (s n) (a, b)) as [r0|] eqn:E.
  - unfold add_parallel. constructor; cbn; try apply I.
    intros x y r' E'. rewrite hset_length. eapply s_ref; eauto.
  - assert (E2 : dget (s n) (b, a) = None).
    { destruct (dget (s n) (b, a)) eqn:F; [|reflexivity]. apply (s_sym I) in F; congruence. }
    assert (SG : forall x y, dget (dset (dset (s n) (a, b) r) (b, a) r) (x, y) =
       if same_pair x y a b then Some r else dget (s n) (x, y)).
    { intros x y. rewrite !dget_dset. destruct (same_pair x y a b) eqn:SP.
      - apply same_pair_spec in SP. des_eq; try reflexivity. destruct SP as [[-> ->]|[-> ->]]; congruence.
      - des_eq; try reflexivity; exfalso.
        + injection e as -> ->. assert (same_pair b a a b = true) by (apply same_pair_spec; auto). congruence.
        + injection e as -> ->. assert (same_pair a b a b = true) by (apply same_pair_spec; auto). congruence. }
    assert (TG : forall x, dget (star_append (star_append (node_to_s n) a (r, b)) b (r, a)) x =
       if eq_dec x a then Some (match dget (node_to_s n) a with Some l => l | None => [] end ++ [(r, b)])
       else if eq_dec x b then Some (match dget (node_to_s n) b with Some l => l | None => [] end ++ [(r, a)])
       else dget (node_to_s n) x).
    { intros x. rewrite !dget_star_append. des_eq; subst; try congruence; reflexivity. }
    constructor; cbn; try apply I.
    + apply dwf_dset, dwf_dset, I.
    + apply dwf_star_append, dwf_star_append, I.
    + intros x y q. rewrite !SG. rewrite (same_pair_swap y x). destruct (same_pair x y a b); [auto|apply I].
    + intros x. rewrite SG. destruct (same_pair x x a b) eqn:SP; [|apply I].
      apply same_pair_spec in SP. destruct SP as [[-> ->]|[-> ->]]; congruence.
    + intros x y q. rewrite SG. destruct (same_pair x y a b); [intros [= <-]; exact Lr|]. intros Q; eapply s_ref; eauto.
    + intros x y c d q. rewrite !SG.
      destruct (same_pair x y a b) eqn:S1, (same_pair c d a b) eqn:S2; intros Q1 Q2.
      * apply same_pair_spec in S1, S2. destruct S1 as [[-> ->]|[-> ->]], S2 as [[-> ->]|[-> ->]]; auto.
      * injection Q1 as <-. exfalso; eapply U; eauto.
      * injection Q2 as <-. exfalso; eapply U; eauto.
      * eapply s_sep; eauto.
    + intros x y q. rewrite SG, TG. destruct (same_pair x y a b) eqn:SP.
      * intros [= <-]. apply same_pair_spec in SP. destruct SP as [[-> ->]|[-> ->]].
        -- destruct (eq_dec a a); [|congruence]. eexists; split; [reflexivity|]. apply in_or_app; right; left; reflexivity.
        -- destruct (eq_dec b a); [congruence|]. destruct (eq_dec b b); [|congruence].
           eexists; split; [reflexivity|]. apply in_or_app; right; left; reflexivity.
      * intros Q. destruct (s_star I _ _ Q) as (l & L & Il).
        destruct (eq_dec x a) as [->|]; [|destruct (eq_dec x b) as [->|]].
        -- eexists; split; [reflexivity|]. rewrite L. apply in_or_app; left; exact Il.
        -- eexists; split; [reflexivity|]. rewrite L. apply in_or_app; left; exact Il.
        -- eauto.
    + intros x l q y. rewrite SG, TG.
      assert (Old : forall l0, dget (node_to_s n) x = Some l0 -> In (q, y) l0 ->
        (if same_pair x y a b then Some r else dget (s n) (x, y)) = Some q).
      { intros l0 L0 I0. pose proof (star_s I _ _ _ L0 I0) as Q.
        destruct (same_pair x y a b) eqn:SP; [|exact Q].
        apply same_pair_spec in SP. destruct SP as [[-> ->]|[-> ->]]; congruence. }
      destruct (eq_dec x a) as [->|]; [|destruct (eq_dec x b) as [->|]].
      * intros [= <-] J. apply in_app_or in J. destruct J as [J|[J|[]]].
        -- destruct (dget (node_to_s n) a) eqn:L; [|destruct J]. eapply Old; eauto.
        -- injection J as <- <-. assert (H : same_pair a b a b = true) by (apply same_pair_spec; auto). rewrite H; reflexivity.
      * intros [= <-] J. apply in_app_or in J. destruct J as [J|[J|[]]].
        -- destruct (dget (node_to_s n) b) eqn:L; [|destruct J]. eapply Old; eauto.
        -- injection J as <- <-. assert (H : same_pair b a a b = true) by (apply same_pair_spec; auto). rewrite H; reflexivity.
      * intros L J; eapply Old; eauto.
    + intros x l. rewrite TG.
      assert (ND : forall x y, dget (s n) (x, y) = None -> 
         NoDup (map snd (match dget (node_to_s n) x with Some l => l | None => [] end ++ [(r, y)]))).
      { intros z y Z. rewrite map_app; simpl. eapply Permutation_NoDup; [apply Permutation_cons_append|].
        destruct (dget (node_to_s n) z) as [l0|] eqn:L; [|simpl; constructor; [auto|constructor]].
        constructor; [|eapply star_nd; eauto]. intros J. apply in_map_iff in J. destruct J as ([q y'] & Ey & J).
        simpl in Ey; subst y'. apply (star_s I _ _ _ L) in J. congruence. }
      destruct (eq_dec x a) as [->|]; [|destruct (eq_dec x b) as [->|]].
      * intros [= <-]; apply ND; auto.
      * intros [= <-]; apply ND; auto.
      * intros L; eapply star_nd; eauto.
    + intros x l. rewrite TG. destruct (eq_dec x a) as [->|]; [|destruct (eq_dec x b) as [->|]].
      * intros _. apply dkeys_dget; exact La.
      * intros _. apply dkeys_dget; exact Lb.
      * intros L; eapply star_loc; eauto.
Qed.

Lemma cond_add_cond_ref n a b r x y : Inv n -> a <> b -> unused n r ->
  cond_between (add_cond_ref n a b r) x y =
  cond_between n x y + (if same_pair x y a b then hget (heap n) r else 0).
Proof.
  intros I Nab U. unfold add_cond_ref. destruct (dget (s n) (a, b)) as [r0|] eqn:E.
  - unfold cond_between, add_parallel; cbn. destruct (dget (s n) (x, y)) as [q|] eqn:F.
    + rewrite hget_hset by (eapply s_ref; eauto).
      destruct (Nat.eq_dec q r0) as [->|N].
      * destruct (s_sep I _ _ _ _ F E) as [[-> ->]|[-> ->]].
        -- replace (same_pair a b a b) with true by (symmetry; apply same_pair_spec; auto). reflexivity.
        -- replace (same_pair b a a b) with true by (symmetry; apply same_pair_spec; auto). reflexivity.
      * destruct (same_pair x y a b) eqn:SP; [|ring]. exfalso. apply same_pair_spec in SP.
        destruct SP as [[-> ->]|[-> ->]]; [congruence|]. apply (s_sym I) in F; congruence.
    + destruct (same_pair x y a b) eqn:SP; [|ring]. exfalso. apply same_pair_spec in SP.
      destruct SP as [[-> ->]|[-> ->]]; [congruence|]. apply (s_sym I) in E; congruence.
  - unfold cond_between; cbn. rewrite !dget_dset.
    assert (E2 : dget (s n) (b, a) = None).
    { destruct (dget (s n) (b, a)) eqn:F; [|reflexivity]. apply (s_sym I) in F; congruence. }
    destruct (same_pair x y a b) eqn:SP.
    + apply same_pair_spec in SP. destruct SP as [[-> ->]|[-> ->]].
      * rewrite E. des_eq; try congruence; ring.
      * rewrite E2. des_eq; try congruence; ring.
    + destruct (eq_dec (x, y) (b, a)) as [Q|_].
      { injection Q as -> ->. assert (same_pair b a a b = true) by (apply same_pair_spec; auto). congruence. }
      destruct (eq_dec (x, y) (a, b)) as [Q|_].
      { injection Q as -> ->. assert (same_pair a b a b = true) by (apply same_pair_spec; auto). congruence. }
      ring.
Qed.

Lemma unused_new n g : Inv n -> unused (fst (new_cond n g)) (List.length (heap n)).
Proof. intros I a b E; cbn in E. apply (s_ref I) in E; lia. Qed.

Lemma Inv_add_cond n a b g : Inv n -> a <> b -> In a (node_list n) -> In b (node_list n) ->
  Inv (add_cond n a b g).
Proof.
  intros I N A B. unfold add_cond. cbn. apply (Inv_add_cond_ref (n := fst (new_cond n g))).
  - apply Inv_new_cond; exact I.
  - exact N.
  - exact A.
  - exact B.
  - cbn. rewrite app_length; simpl; lia.
  - apply unused_new; exact I.
Qed.
Lemma cond_add_cond n a b g x y : Inv n -> a <> b ->
  cond_between (add_cond n a b g) x y =
  cond_between n x y + (if same_pair x y a b then g else 0).
Proof.
  intros I N. unfold add_cond. cbn.
  rewrite (cond_add_cond_ref (n := fst (new_cond n g))); auto using Inv_new_cond, unused_new.
  rewrite cond_new_cond by exact I. cbn. rewrite hget_app_last. reflexivity.
Qed.

(** fields not touched *)
Lemma add_cond_ref_locs n a b r : locations (add_cond_ref n a b r) = locations n.
Proof. unfold add_cond_ref; destruct (dget _ _); reflexivity. Qed.
Lemma add_cond_ref_nodes n a b r : nodes (add_cond_ref n a b r) = nodes n.
Proof. unfold add_cond_ref; destruct (dget _ _); reflexivity. Qed.
Lemma add_cond_ref_next n a b r : next_id (add_cond_ref n a b r) = next_id n.
Proof. unfold add_cond_ref; destruct (dget _ _); reflexivity. Qed.
Lemma add_cond_ref_prec n a b r : precious (add_cond_ref n a b r) = precious n.
Proof. unfold add_cond_ref; destruct (dget _ _); reflexivity. Qed.
Lemma add_cond_ref_names n a b r : node_names (add_cond_ref n a b r) = node_names n.
Proof. unfold add_cond_ref; destruct (dget _ _); reflexivity. Qed.
Lemma add_cond_locs n a b g : locations (add_cond n a b g) = locations n.
Proof. unfold add_cond; cbn. rewrite add_cond_ref_locs; reflexivity. Qed.
Lemma add_cond_nodes n a b g : nodes (add_cond n a b g) = nodes n.
Proof. unfold add_cond; cbn. rewrite add_cond_ref_nodes; reflexivity. Qed.
Lemma add_cond_next n a b g : next_id (add_cond n a b g) = next_id n.
Proof. unfold add_cond; cbn. rewrite add_cond_ref_next; reflexivity. Qed.
Lemma add_cond_prec n a b g : precious (add_cond n a b g) = precious n.
Proof. unfold add_cond; cbn. rewrite add_cond_ref_prec; reflexivity. Qed.
Lemma add_cond_names n a b g : node_names (add_cond n a b g) = node_names n.
Proof. unfold add_cond; cbn. rewrite add_cond_ref_names; reflexivity. Qed.

(** the star list of a node not involved in an add_cond is unchanged *)
Lemma add_cond_star_other n a b g x : x <> a -> x <> b ->
  dget (node_to_s (add_cond n a b g)) x = dget (node_to_s n) x.
Proof.
  intros A B. unfold add_cond, add_cond_ref; cbn. destruct (dget (s n) (a, b)); cbn; [reflexivity|].
  rewrite !dget_star_append. des_eq; congruence.
Qed.
Lemma dkeys_star_append st a e x :
  In x (dkeys (star_append st a e)) <-> x = a \/ In x (dkeys st).
Proof. unfold star_append. destruct (dget st a); apply dkeys_dset_in. Qed.
(** keys of the star table: add_cond only adds its end points *)
Lemma add_cond_star_keys n a b g x :
  In x (dkeys (node_to_s (add_cond n a b g))) -> In x (dkeys (node_to_s n)) \/ x = a \/ x = b.
Proof.
  unfold add_cond, add_cond_ref; cbn. destruct (dget (s n) (a, b)); cbn; [auto|].
  rewrite !dkeys_star_append; tauto.
Qed.
Lemma add_cond_star_keys_mono n a b g x :
  In x (dkeys (node_to_s n)) -> In x (dkeys (node_to_s (add_cond n a b g))).
Proof.
  unfold add_cond, add_cond_ref; cbn. destruct (dget (s n) (a, b)); cbn; [auto|].
  rewrite !dkeys_star_append; tauto.
Qed.
(** existing resistors keep their object *)
Lemma add_cond_s_mono n a b g x y r : Inv n -> 
  dget (s n) (x, y) = Some r -> dget (s (add_cond n a b g)) (x, y) = Some r.
Proof.
  intros I E. unfold add_cond, add_cond_ref; cbn. destruct (dget (s n) (a, b)) eqn:F; cbn; [exact E|].
  rewrite !dget_dset. des_eq; try congruence.
  injection e as -> ->. apply (s_sym I) in E. congruence.
Qed.
