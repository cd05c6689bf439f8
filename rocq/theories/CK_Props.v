(** C36: the self-check of the generated surfaces. *)
From Coq Require Import String List ZArith Lia Permutation.
From Verif Require Import PyBase PyLib FG_Model CK_Model CK_Spec CK_Geo CK_Proofs.
Local Open Scope Z_scope.
Local Open Scope list_scope.

Lemma split_loop_more ord fuel : forall i hist es r, split_loop ord fuel i hist es = r -> r <> OutOfFuel ->
  forall fuel', (fuel <= fuel')%nat -> split_loop ord fuel' i hist es = r.
Proof.
  induction fuel as [|fuel IH]; intros i hist es r E Hr fuel' Hf; [cbn in E; congruence|].
  destruct fuel' as [|fuel']; [lia|]. cbn [split_loop] in *. destruct (subst_of hist (ord i es)); [exact E|].
  destruct (fold_left replace _ _) as [[h' e']|]; [|exact E]. apply (IH (S i) h' e' r E Hr). lia.
Qed.
Lemma check_more ord fuel fuel' edges n : check_edges ord fuel edges = Some n -> (fuel <= fuel')%nat -> check_edges ord fuel' edges = Some n.
Proof.
  unfold check_edges. destruct (collect_edges edges) as [es dups]. intros E L. unfold split_edges in *.
  destruct (split_loop ord fuel 1 (ord 0%nat es) es) as [es'| |] eqn:F; try discriminate.
  assert (Nf : Finished es' <> OutOfFuel) by discriminate. rewrite (split_loop_more _ _ _ _ _ _ F Nf _ L). exact E.
Qed.

Section Order.
(** the unknown order in which Python iterates a set, which may differ from round to round *)
Variable ord : nat -> list edge -> list edge.
Hypothesis ord_perm : forall i l, Permutation (ord i l) l.

(** the check ends, and raises no exception, for every list of edges *)
Theorem C36_terminates edges : exists rounds n, forall fuel, (rounds <= fuel)%nat -> check_edges ord fuel edges = Some n.
Proof.
  destruct (check_ends ord ord_perm edges) as [N H]. destruct (H N (le_n _)) as (es & h & V & _ & _ & _ & E).
  exists N. eexists. intros fuel Hf. eapply check_more; eauto.
Qed.
Lemma check_state edges fuel n : check_edges ord fuel edges = Some n ->
  exists es hist V, inv edges V hist es /\ settled hist es /\
    n = (snd (collect_edges edges) + length (filter (fun e => negb (existsb (eqb (erev e)) es)) es))%nat.
Proof.
  intros E. destruct (check_ends ord ord_perm edges) as [N H]. destruct (H (N + fuel)%nat ltac:(lia)) as (es & h & V & _ & HI & HS & E2).
  exists es, h, V. split; [exact HI|]. split; [exact HS|]. rewrite (check_more _ _ (N + fuel) _ _ E) in E2 by lia. now injection E2.
Qed.
Lemma dups_zero edges : snd (collect_edges edges) = 0%nat <-> NoDup edges.
Proof. destruct (collect_edges_spec edges [] 0 (NoDup_nil _)) as (_ & _ & _ & D). rewrite app_nil_r in D. exact D. Qed.

(** no error: no directed edge twice, and every proper edge consists of pieces that original
    edges run back *)
Theorem C36_sound edges fuel : check_edges ord fuel edges = Some 0%nat ->
  NoDup edges /\
  forall p q, In (p, q) edges -> p <> q -> exists pieces, chain pieces p q p q /\
    forall x y, In (x, y) pieces -> sub_edge x y p q /\ exists c d, In (c, d) edges /\ sub_edge y x c d.
Proof.
  intros H. destruct (check_state _ _ _ H) as (es & h & V & HI & HS & E). split; [apply dups_zero; lia|].
  assert (HR : forall e, In e es -> In (erev e) es).
  { intros e He. destruct (existsb (eqb (erev e)) es) eqn:Em; [now apply mem_true|]. exfalso.
    assert (X : In e (filter (fun e => negb (existsb (eqb (erev e)) es)) es)) by (apply filter_In; now rewrite Em).
    destruct (filter _ es); [destruct X|cbn in E; lia]. }
  intros p q Hpq Hn. assert (C := inv_chain _ _ _ _ HI _ _ Hpq Hn).
  assert (G : forall a, chain es p q a q -> reaches p q p a -> exists pieces, chain pieces p q a q /\
    forall x y, In (x, y) pieces -> sub_edge x y p q /\ exists c d, In (c, d) edges /\ sub_edge y x c d).
  { clear C. intros a C. remember q as b eqn:Eb in C at 2. induction C as [a|a x b H1 D1 H2 IH]; intros Ra.
    - rewrite Eb. exists []. split; [constructor|intros x y []].
    - subst b. assert (Rx : reaches p q p x) by (right; destruct Ra as [<-|Ra]; [exact D1|eapply dir_add; eauto]).
      destruct (IH eq_refl Rx) as (l & L1 & L2). exists ((a, x) :: l). split.
      + apply chain_edge with x; [now left|exact D1|]. eapply chain_mono; [|exact L1]. intros; now right.
      + intros u v [E2|Huv]; [|auto]. injection E2 as <- <-. split.
        * split; [exact D1|]. split; [exact Ra|]. eapply chain_reaches; exact H2.
        * assert (H1' := HR _ H1). unfold erev in H1'. cbn [fst snd] in H1'.
          destruct (inv_sub _ _ _ _ HI x a H1') as (c & d & S1 & S2 & S3 & S4); [intros ->; now destruct D1|].
          exists c, d. split; [exact S1|]. split; [exact S2|]. split; eapply chain_reaches; eauto. }
  apply G; [exact C|now left].
Qed.
(** edges that are matched up to T junctions, without duplicates, are accepted *)
Theorem C36_complete edges : NoDup edges -> closed_up_to_T edges ->
  exists rounds, forall fuel, (rounds <= fuel)%nat -> check_edges ord fuel edges = Some 0%nat.
Proof.
  intros ND HC. destruct (C36_terminates edges) as (N & n & H). exists N. intros fuel Hf. rewrite (H fuel Hf). f_equal.
  destruct (check_state _ _ _ (H fuel Hf)) as (es & h & V & HI & HS & E). apply dups_zero in ND. rewrite ND in E. cbn in E.
  rewrite E. clear - HI HS HC. assert (HR := closed_settled _ _ _ _ HI HS HC).
  destruct (filter _ es) as [|e l] eqn:F; [reflexivity|]. exfalso.
  assert (X : In e (filter (fun e => negb (existsb (eqb (erev e)) es)) es)) by (rewrite F; now left).
  apply filter_In in X. destruct X as [X1 X2]. apply HR, mem_true in X1. rewrite X1 in X2. discriminate.
Qed.
(** in particular edges that all have their exact reverse *)
Theorem C36_complete_exact edges : NoDup edges -> (forall p q, In (p, q) edges -> In (q, p) edges) ->
  exists rounds, forall fuel, (rounds <= fuel)%nat -> check_edges ord fuel edges = Some 0%nat.
Proof.
  intros ND HR. apply C36_complete; [exact ND|]. intros p q H N. exists p, q.
  split; [constructor|]. split; [constructor|]. apply chain_one; [auto|]. apply dir_refl. congruence.
Qed.
(** the report over all materials and nets *)
Theorem C36_report fuel dbu materials nets diel cond : 
  check ord fuel dbu materials nets diel cond = Some 0%nat <->
  (forall m, In m (dkeys materials) -> check_tris ord fuel dbu (collect_diel diel cond m) = Some 0%nat) /\
  (forall n, In n nets -> check_tris ord fuel dbu (collect_cond cond n) = Some 0%nat).
Proof.
  unfold check. assert (G : forall l, sum_errors l = Some 0%nat <-> forall o, In o l -> o = Some 0%nat).
  { induction l as [|o l IH]; cbn; [split; [intros _ o []|auto]|]. split.
    - destruct o as [a|]; [|discriminate]. destruct (sum_errors l) as [b|] eqn:E; [|discriminate]. intros [= H].
      intros o [<-|Ho]; [f_equal; lia|]. apply IH; [f_equal; lia|exact Ho].
    - intros H. rewrite (H o (or_introl eq_refl)). rewrite (proj2 IH); [reflexivity|]. intros; apply H; now right. }
  rewrite G. split.
  - intros H. split; intros x Hx; apply H, in_or_app; [left|right]; apply in_map_iff; eauto.
  - intros [H1 H2] o Ho. apply in_app_or in Ho. destruct Ho as [Ho|Ho]; apply in_map_iff in Ho; destruct Ho as (x & <- & Hx); auto.
Qed.
End Order.
Print Assumptions C36_terminates.
Print Assumptions C36_sound.
Print Assumptions C36_complete.
Print Assumptions C36_complete_exact.
Print Assumptions C36_report.

(** ** examples *)
Definition fp (x y z : Z) : fpoint := (Q2Qc (inject_Z x), Q2Qc (inject_Z y), Q2Qc (inject_Z z)).
Definition pA := fp 0 0 0. Definition pB := fp 4 0 0. Definition pC := fp 0 4 0. Definition pD := fp 1 1 (-3).
Definition pAB := fp 2 0 0. Definition pBC := fp 2 2 0. Definition pCA := fp 0 2 0.
Definition same_order (i : nat) (l : list edge) := l.
(** a tetrahedron whose base is one triangle and whose other faces meet it in T junctions *)
Definition tetra : list (@tri fpoint) :=
  [(pA, pB, pC); (pAB, pA, pD); (pB, pAB, pD); (pBC, pB, pD); (pC, pBC, pD); (pCA, pC, pD); (pA, pCA, pD)].
Example C36_example_T : check_tris same_order 10 1%Qc tetra = Some 0%nat.
Proof. vm_compute. reflexivity. Qed.
Example C36_example_open : check_tris same_order 10 1%Qc (removelast tetra) = Some 3%nat.
Proof. vm_compute. reflexivity. Qed.
Example C36_example_hypotheses : NoDup (normed_edges 1%Qc [(pA, pB, pC); (pC, pB, pA)]) /\
  forall p q, In (p, q) (normed_edges 1%Qc [(pA, pB, pC); (pC, pB, pA)]) -> In (q, p) (normed_edges 1%Qc [(pA, pB, pC); (pC, pB, pA)]).
Proof.
  assert (E : normed_edges 1%Qc [(pA, pB, pC); (pC, pB, pA)] =
    [(P 0 0 0, P 4 0 0); (P 4 0 0, P 0 4 0); (P 0 4 0, P 0 0 0); (P 0 4 0, P 4 0 0); (P 4 0 0, P 0 0 0); (P 0 0 0, P 0 4 0)]) by (vm_compute; reflexivity).
  rewrite E. split; [repeat constructor; cbn; intuition congruence|]. intros p q H. cbn in H |- *.
  repeat (destruct H as [H|H]; [injection H as <- <-; tauto|]). destruct H.
Qed.

(** an open surface can pass: a closed surface plus one triangle whose sides run along already
    matched, finer edges.  The side from (0,0,0) to (2,0,0) is run over twice forward, once back. *)
Definition closed_mesh : list (@tri fpoint) :=
  [(pA, pAB, pCA); (pAB, pB, pBC); (pCA, pBC, pC); (pAB, pBC, pCA)] ++ tl tetra.
Theorem C36_exactly_closed_refuted : exists ts x y,
  check_tris same_order 10 1%Qc ts = Some 0%nat /\ coverage x y (normed_edges 1%Qc ts) <> coverage y x (normed_edges 1%Qc ts).
Proof.
  exists ((pA, pB, pC) :: closed_mesh), (P 0 0 0), (P 2 0 0). split; [vm_compute; reflexivity|].
  apply Nat.eqb_neq. vm_compute. reflexivity.
Qed.
Print Assumptions C36_exactly_closed_refuted.
