(** Further lemmas on histories: identity of nodes, sequences of add_cond, currents
    after connect_nodes. *)
From Coq Require Import String Permutation.
From Verif Require Import PyBase RN_Model RN_Spec RN_Inv RN_Ops RN_Conn RN_Elim RN_All.
Set Implicit Arguments.
Local Open Scope Qc_scope.

(** ** node ids *)
Lemma node_id_locs n p i : Inv n -> (i < next_id n)%nat -> dget (locations (fst (node_id n p))) i = dget (locations n) i.
Proof.
  intros I L. unfold node_id. destruct (dget (nodes n) p); [reflexivity|]. cbn. rewrite dget_dset_other; [reflexivity|lia].
Qed.
Lemma step_ids n o n1 : Inv n -> op_ok n o = true -> step n o = Some n1 ->
  (next_id n <= next_id n1)%nat /\
  forall i : nid, (i < next_id n)%nat -> dget (locations n1) i = dget (locations n) i \/ dget (locations n1) i = None.
Proof.
  intros I OK S. destruct o; cbn in *.
  - injection S as <-. split.
    + unfold node_id. destruct (dget (nodes n) p); cbn; lia.
    + intros i L. left. apply node_id_locs; auto.
  - injection S as <-. split; [reflexivity|auto].
  - injection S as <-. split; [reflexivity|auto].
  - injection S as <-. rewrite add_cond_next, add_cond_locs. split; auto.
  - destruct (in_dec Nat.eq_dec i (dkeys (node_to_s n))) as [J|J].
    + destruct (eliminate_node_ok _ I J) as (m & Em & G & _). assert (m = n1) by congruence. subst m.
      split; [rewrite (ng_next G); lia|]. intros j _. rewrite (ng_locs G). destruct (eq_dec j i); auto.
    + rewrite eliminate_node_absent in S by exact J. injection S as <-. auto.
  - destruct (in_dec Nat.eq_dec i (dkeys (node_to_s n))) as [J|J].
    + destruct (remove_node_ok _ I J) as (m & Em & G & _). assert (m = n1) by congruence. subst m.
      split; [rewrite (ng_next G); lia|]. intros j _. rewrite (ng_locs G). destruct (eq_dec j i); auto.
    + rewrite remove_node_absent in S by exact J. injection S as <-. auto.
  - rewrite andb_true_iff, negb_true_iff, Nat.eqb_neq, dmem_true in OK. destruct OK as [A N].
    destruct (in_dec Nat.eq_dec b (dkeys (node_to_s n))) as [J|J].
    + destruct (@connect_nodes_ok n a b I N A J) as (m & Em & _ & L & _ & X & _). assert (m = n1) by congruence. subst m.
      split; [lia|]. intros j _. rewrite L. destruct (eq_dec j b); auto.
    + rewrite connect_nodes_absent in S by exact J. injection S as <-. auto.
  - destruct (eliminate_all_ok I) as (m & log & _ & E & _ & _ & _ & _ & _ & _ & L & X & _). rewrite E in S.
    injection S as <-. split; [lia|]. intros j _. rewrite L. destruct (in_dec Nat.eq_dec j log); auto.
Qed.

Lemma run_ids l : forall n n1, Inv n -> run_ok n l -> run n l = Some n1 ->
  Inv n1 /\ (next_id n <= next_id n1)%nat /\
  forall i : nid, (i < next_id n)%nat -> dget (locations n1) i = dget (locations n) i \/ dget (locations n1) i = None.
Proof.
  induction l as [|o l IH]; intros n n1 I OK R.
  - injection R as <-. auto.
  - destruct OK as [O1 O2]. cbn in R. destruct (step_Inv o I O1) as (m & S & Im). rewrite S in *.
    destruct (step_ids _ I O1 S) as [N1 L1]. destruct (IH m n1 Im O2 R) as (I2 & N2 & L2).
    split; [exact I2|]. split; [lia|]. intros i Li. destruct (L2 i) as [E|E]; [lia| |auto]. rewrite E. auto.
Qed.

Lemma node_id_spec n p n1 i : Inv n -> node_id n p = (n1, i) ->
  Inv n1 /\ dget (nodes n1) p = Some i /\ dget (locations n1) i = Some p /\ (i < next_id n1)%nat.
Proof.
  intros I E. assert (I1 : Inv n1) by (pose proof (Inv_node_id p I) as Q; rewrite E in Q; exact Q).
  assert (N : dget (nodes n1) p = Some i).
  { unfold node_id in E. destruct (dget (nodes n) p) eqn:F; injection E as <- <-; [exact F|]. cbn. apply dget_dset_same. }
  pose proof (proj1 (i_nl I1 p i) N) as N'. split; [exact I1|]. split; [exact N|]. split; [exact N'|]. eapply i_lt; eauto.
Qed.

(** an id that lost its node is never handed out again *)
Lemma id_dead l n n1 i q : Inv n -> (i < next_id n)%nat -> dget (locations n) i = None ->
  run_ok n l -> run n l = Some n1 -> snd (node_id n1 q) <> i.
Proof.
  intros I L D OK R E. destruct (run_ids l I OK R) as (I1 & N1 & L1).
  destruct (node_id n1 q) as [n2 j] eqn:F. cbn in E; subst j.
  unfold node_id in F. destruct (dget (nodes n1) q) eqn:G; injection F as <- <-.
  - apply (i_nl I1) in G. destruct (L1 n0 L) as [Z|Z]; congruence.
  - lia.
Qed.

(** ** sequences of add_cond *)
Lemma add_all_ok l : forall n, Inv n ->
  (forall a b g, In (a, b, g) l -> a <> b /\ In a (node_list n) /\ In b (node_list n)) ->
  Inv (add_all n l) /\ forall x y, cond_between (add_all n l) x y = cond_between n x y + added_between l x y.
Proof.
  induction l as [|[[a b] g] l IH]; intros n I H.
  - split; [exact I|]. intros. unfold added_between. rewrite qsumf_nil. cbn. ring.
  - destruct (H a b g (or_introl eq_refl)) as (N & A & B).
    destruct (IH (add_cond n a b g)) as [I2 C2].
    + apply Inv_add_cond; auto.
    + intros a' b' g' J. unfold node_list. rewrite add_cond_locs. apply (H a' b' g'). right; exact J.
    + split; [exact I2|]. intros x y. cbn [add_all]. rewrite C2, cond_add_cond by auto.
      unfold added_between. rewrite qsumf_cons. ring.
Qed.

(** ** connect_nodes *)
Lemma connect_current n a b n1 v x : Inv n -> a <> b -> In a (node_list n) -> In b (node_list n) ->
  connect_nodes n a b = Some n1 -> v b = v a ->
  In x (node_list n) -> x <> b ->
  current n1 v x = if Nat.eq_dec x a then current n v a + current n v b else current n v x.
Proof.
  intros I Nab La Lb E V Lx Nx.
  assert (SI : forall z, cond_between n z z = 0) by (intros; apply cond_irr; auto).
  destruct (in_dec Nat.eq_dec b (dkeys (node_to_s n))) as [J|J].
  - destruct (@connect_nodes_ok n a b I Nab La J) as (m & Em & I1 & _ & NL & _ & _ & _ & Z & C).
    assert (m = n1) by congruence. subst m.
    set (L' := remove Nat.eq_dec b (node_list n)) in *.
    unfold current at 1. rewrite NL.
    destruct (Nat.eq_dec x a) as [->|Nxa].
    + rewrite (current_split v a _ I Lb), (current_split v b _ I Lb), SI, V. fold L'.
      rewrite (qsumf_ext _ (fun y => cond_between n a y * (v a - v y) + cond_between n b y * (v a - v y))).
      * rewrite qsumf_plus. ring.
      * intros y Jy. apply in_remove in Jy. rewrite C by tauto. rewrite Nat.eqb_refl.
        destruct (Nat.eqb_spec y a) as [->|]; cbn; ring.
    + rewrite (current_split v x _ I Lb). fold L'.
      assert (La' : In a L') by (apply in_in_remove; auto).
      assert (ND : NoDup L').
      { unfold L'. clear -I. pose proof (NoDup_node_list I) as N.
        induction (node_list n) as [|c l IH]; [constructor|]. inversion N; subst. simpl.
        destruct (Nat.eq_dec b c); [auto|]. constructor; [|auto]. intros J; apply in_remove in J; tauto. }
      rewrite (qsumf_ext _ (fun y => cond_between n x y * (v x - v y)
           + (if Nat.eq_dec y a then cond_between n b x * (v x - v a) else 0))).
      * rewrite qsumf_plus. rewrite (@qsumf_single _ _ (fun y => if Nat.eq_dec y a then _ else 0) L' a); auto.
        -- destruct (Nat.eq_dec a a); [|congruence]. rewrite (cond_sym x b I), V. ring.
        -- intros y _ Ny. destruct (Nat.eq_dec y a); [contradiction|reflexivity].
      * intros y Jy. apply in_remove in Jy. rewrite C by tauto.
        destruct (Nat.eqb_spec x a); [contradiction|].
        destruct (Nat.eqb_spec y a) as [Q|Q], (Nat.eq_dec y a); try congruence; cbn; [rewrite Q|]; ring.
  - rewrite connect_nodes_absent in E by exact J. injection E as <-.
    destruct (Nat.eq_dec x a) as [->|]; [|reflexivity].
    assert (Z : current n v b = 0); [|rewrite Z; ring].
    unfold current. apply qsumf_zero. intros y _. unfold cond_between.
    destruct (dget (s n) (b, y)) eqn:F; [|ring]. exfalso. apply J.
    destruct (s_star I _ _ F) as (l & L & _). eapply dget_Some_key; eauto.
Qed.
