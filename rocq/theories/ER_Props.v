(** Property theorems C10-C13 (extraction summary). *)
From Coq Require Import String Permutation.
From Verif Require Import PyBase PyLib QcLra ER_Model ER_Spec ER_Proofs.
Local Open Scope Qc_scope.
Local Open Scope string_scope.

(** ** C10 *)
Theorem C10_summary_conserves : forall ops r sm,
  cell_summarize (with_networks (add_caps ops) r) = Some sm ->
  (forall x y, mentioned (map report_of ops) x y ->
     pair_value (capacitances sm) x y = Some (reported (map report_of ops) x y)) /\
  (forall x y, ~ mentioned (map report_of ops) x y -> pair_value (capacitances sm) x y = None) /\
  total (capacitances sm) = total (map report_of ops).
Proof.
  intros ops r sm E. split; [|split].
  - intros x y M. rewrite (add_caps_pair ops r x y eq_refl E). apply mentioned_hits in M. rewrite M, reported_ksum. reflexivity.
  - intros x y M. rewrite (add_caps_pair ops r x y eq_refl E). rewrite mentioned_hits in M.
    destruct (hits (map report_of ops) x y); [destruct (M eq_refl)|reflexivity].
  - destruct (cell_summary_caps _ E) as [_ H]. destruct (H (fun _ => true)) as [T _]; [intros a b; reflexivity|].
    unfold total. rewrite !total_ksum. rewrite T.
    change (cell_entries (with_networks (add_caps ops) r)) with (cell_entries (fold_left add_step ops new_cell)).
    rewrite add_caps_sum by (intros a b; reflexivity). cbn [cell_entries new_cell overlap_table sidewall_table sideoverlap_table table_entries map app].
    rewrite ksum_nil. ring.
Qed.
Print Assumptions C10_summary_conserves.
(** without an R extraction result summarizing never raises *)
Theorem C10_summary_total : forall ops, exists sm, cell_summarize (add_caps ops) = Some sm.
Proof.
  intros ops. destruct (cell_summarize (add_caps ops)) as [sm|] eqn:E; [eauto|].
  apply cell_summarize_none in E. unfold add_caps in E. rewrite add_caps_r in E. discriminate.
Qed.
Print Assumptions C10_summary_total.

Definition ops1 : list add_op :=
  [AddOverlap (OverlapCap ("m2", "A", "m1", "B") 1 0 0); AddSidewall (SidewallCap ("m1", "A", "B") (Q2Qc 2) 0 0);
   AddSideOverlap (SideOverlapCap ("m1", "B", "m2", "A") (Q2Qc 4)); AddOverlap (OverlapCap ("m3", "B", "m1", "A") (Q2Qc 8) 0 0);
   AddSidewall (SidewallCap ("m1", "C", "B") (Q2Qc 16) 0 0)].
Example C10_nontrivial : exists sm, cell_summarize (with_networks (add_caps ops1) []) = Some sm /\
  mentioned (map report_of ops1) "B" "A" /\ reported (map report_of ops1) "B" "A" = Q2Qc 15 /\
  ~ mentioned (map report_of ops1) "A" "C".
Proof.
  eexists. split; [reflexivity|]. split; [exists "A", "B", 1; split; [left; reflexivity|reflexivity]|].
  split; [qceq|]. rewrite mentioned_hits. discriminate.
Qed.

(** ** C11 *)
Theorem C11_order_and_orientation : forall ops ops' mid sm sm' r r',
  Permutation ops mid ->
  Forall2 (fun o o' => o' = o \/ o' = swap_op o) mid ops' ->
  cell_summarize (with_networks (add_caps ops) r) = Some sm ->
  cell_summarize (with_networks (add_caps ops') r') = Some sm' ->
  (forall x y, pair_value (capacitances sm) x y = pair_value (capacitances sm') x y) /\
  normal_table (capacitances sm) /\ normal_table (capacitances sm').
Proof.
  intros ops ops' mid sm sm' r r' Pm Sw E E'. split; [|split; [apply (cell_summary_caps _ E)|apply (cell_summary_caps _ E')]].
  intros x y. rewrite (add_caps_pair ops r x y eq_refl E), (add_caps_pair ops' r' x y eq_refl E').
  assert (H : hits (map report_of ops) x y = hits (map report_of ops') x y /\
              netsum (map report_of ops) x y = netsum (map report_of ops') x y).
  { assert (Q : forall o o', o' = o \/ o' = swap_op o ->
       same_nets x y (fst (fst (report_of o'))) (snd (fst (report_of o'))) = same_nets x y (fst (fst (report_of o))) (snd (fst (report_of o)))
       /\ snd (report_of o') = snd (report_of o)).
    { intros o o' [->| ->]; [auto|]. destruct o as [c|c|c]; cbn.
      - destruct (ov_key c) as [[[? ?] ?] ?]; cbn. split; [apply same_nets_swap|reflexivity].
      - destruct (sw_key c) as [[? ?] ?]; cbn. split; [apply same_nets_swap|reflexivity].
      - destruct (so_key c) as [[[? ?] ?] ?]; cbn. split; [apply same_nets_swap|reflexivity]. }
    assert (A : hits (map report_of ops) x y = hits (map report_of mid) x y /\
                netsum (map report_of ops) x y = netsum (map report_of mid) x y).
    { split.
      - unfold hits, kany. apply eq_true_iff_eq. rewrite !existsb_exists.
        split; intros [e [J S]]; exists e; (split; [|exact S]); eapply Permutation_in; try exact J;
        [|symmetry]; apply Permutation_map, Pm.
      - unfold netsum, ksum. apply qsumf_perm, Permutation_map, Pm. }
    destruct A as [-> ->]. clear -Sw Q. induction Sw as [|o o' l l' C Sw IH]; [auto|].
    destruct IH as [IH1 IH2]. destruct (Q _ _ C) as [S1 S2]. unfold hits, netsum in *. cbn [map]. rewrite !ksum_cons.
    unfold kany in *. cbn [existsb]. rewrite S1, S2, IH1, IH2. auto. }
  destruct H as [-> ->]. reflexivity.
Qed.
Print Assumptions C11_order_and_orientation.
Example C11_nontrivial : Permutation ops1 (rev ops1) /\
  Forall2 (fun o o' => o' = o \/ o' = swap_op o) (rev ops1) (map swap_op (rev ops1)).
Proof. split; [apply Permutation_rev|]. cbn. repeat constructor; right; reflexivity. Qed.

(** ** C12 *)
Lemma opt_total_hits (ts : list (dict (string * string) Qc)) x y :
  (forall t, In t ts -> normal_table t) ->
  pair_value (merge_table ts) x y = opt_total (map (fun t => pair_value t x y) ts).
Proof.
  intros N. rewrite merge_pair. induction ts as [|t ts IH]; [reflexivity|].
  cbn [concat map opt_total]. destruct (pair_value_normal x y (N t (or_introl eq_refl))) as [V _]. rewrite V.
  assert (IH' := IH (fun t J => N t (or_intror J))). clear IH V. unfold hits, netsum in *. rewrite kany_app, ksum_app.
  destruct (kany _ t) eqn:K.
  - rewrite <- IH'. destruct (kany _ (concat ts)) eqn:K2; cbn [orb]; [reflexivity|].
    f_equal. replace (ksum _ (concat ts)) with (Q2Qc 0); [ring|]. symmetry. apply ksum_none. intros k J.
    apply in_map_iff in J. destruct J as [e [<- J]]. apply not_true_is_false. intros S.
    assert (C : kany (fun k => same_nets x y (fst k) (snd k)) (concat ts) = true) by (apply existsb_exists; eauto). congruence.
  - rewrite <- IH'. cbn [orb]. destruct (kany _ (concat ts)); [|reflexivity]. f_equal.
    replace (ksum _ t) with (Q2Qc 0); [ring|]. symmetry. apply ksum_none. intros k J.
    apply in_map_iff in J. destruct J as [e [<- J]]. apply not_true_is_false. intros S.
    assert (C : kany (fun k => same_nets x y (fst k) (snd k)) t = true) by (apply existsb_exists; eauto). congruence.
Qed.
Lemma cell_normal c s : cell_summarize c = Some s -> normal_summary s.
Proof.
  intros E. split; [apply (cell_summary_caps _ E)|]. destruct (cell_resistances _ E) as (r & _ & N & _). exact N.
Qed.
Lemma summarize_cells_spec l : forall ss, summarize_cells l = Some ss <-> Forall2 (fun c s => cell_summarize c = Some s) l ss.
Proof.
  induction l as [|c l IH]; intros ss; cbn.
  - split; [intros [= <-]; constructor|intros H; inversion H; reflexivity].
  - split.
    + destruct (cell_summarize c) eqn:E; [|discriminate]. destruct (summarize_cells l); [|discriminate].
      intros [= <-]. constructor; [exact E|apply IH; reflexivity].
    + intros H; inversion H; subst. rewrite H2. apply IH in H4. rewrite H4. reflexivity.
Qed.
Theorem C12_cells_add_up : forall (r : results) sums,
  Forall2 (fun c s => cell_summarize c = Some s) (dvals r) sums ->
  exists sm, summarize r = Some sm /\ normal_summary sm /\ forall x y,
    pair_value (capacitances sm) x y = opt_total (map (fun s => pair_value (capacitances s) x y) sums) /\
    pair_value (resistances sm) x y = opt_total (map (fun s => pair_value (resistances s) x y) sums).
Proof.
  intros r sums F. exists (merged sums). unfold summarize. rewrite (proj2 (summarize_cells_spec _ _) F).
  split; [reflexivity|]. split; [split; apply merge_normal|]. intros x y.
  assert (N : forall s, In s sums -> normal_summary s).
  { clear -F. induction F as [|c s l ss E F IH]; [intros s' []|]. intros s' [J|J]; [subst; eapply cell_normal; eauto|auto]. }
  unfold merged; cbn [capacitances resistances]. rewrite !opt_total_hits, !map_map; [auto| |];
  intros t J; apply in_map_iff in J; destruct J as [s [<- J]]; apply N, J.
Qed.
Print Assumptions C12_cells_add_up.
Theorem C12_merge_laws :
  (forall l m, Permutation l m -> same_summary (merged l) (merged m)) /\
  (forall l m, same_summary (merged (l ++ m)) (merged [merged l; merged m])) /\
  (forall ls, same_summary (merged (concat ls)) (merged (map merged ls))) /\
  (forall s, normal_summary s -> merged [s] = s).
Proof.
  assert (Perm : forall ts us x y, Permutation ts us -> pair_value (merge_table ts) x y = pair_value (merge_table us) x y).
  { intros ts us x y P. rewrite !merge_pair. assert (C : Permutation (concat ts) (concat us)).
    { clear -P. induction P; cbn; [constructor|apply Permutation_app_head; assumption| |etransitivity; eauto].
      rewrite !app_assoc. apply Permutation_app_tail, Permutation_app_comm. }
    unfold hits, netsum, ksum. rewrite (qsumf_perm _ C).
    replace (kany (fun k => same_nets x y (fst k) (snd k)) (concat ts)) with (kany (fun k => same_nets x y (fst k) (snd k)) (concat us)); [reflexivity|].
    unfold kany. apply eq_true_iff_eq. rewrite !existsb_exists.
    split; intros [e [J S]]; exists e; (split; [|exact S]); eapply Permutation_in; try exact J; [symmetry|]; exact C. }
  assert (Acc : forall ts x y, hits (merge_table ts) x y = hits (concat ts) x y /\ netsum (merge_table ts) x y = netsum (concat ts) x y).
  { intros ts x y. rewrite merge_table_acc. unfold hits, netsum. rewrite kany_accum, ksum_accum.
    fold (netsum (norm_entries (concat ts)) x y). fold (hits (norm_entries (concat ts)) x y).
    rewrite netsum_norm, hits_norm, ksum_nil. split; [reflexivity|]. unfold netsum. ring. }
  assert (Grp : forall tss x y, pair_value (merge_table (concat tss)) x y = pair_value (merge_table (map merge_table tss)) x y).
  { intros tss x y. rewrite !merge_pair.
    assert (H : hits (concat (concat tss)) x y = hits (concat (map merge_table tss)) x y /\
                netsum (concat (concat tss)) x y = netsum (concat (map merge_table tss)) x y).
    { induction tss as [|ts tss IH]; [auto|]. destruct IH as [I1 I2]. destruct (Acc ts x y) as [A1 A2].
      cbn [concat map]. rewrite concat_app. unfold hits, netsum in *. rewrite !kany_app, !ksum_app. rewrite I1, I2, A1, A2. auto. }
    destruct H as [-> ->]. reflexivity. }
  assert (G3 : forall ls, same_summary (merged (concat ls)) (merged (map merged ls))).
  { intros ls x y. unfold merged; cbn [capacitances resistances]. rewrite !concat_map, !Grp, !map_map. auto. }
  split; [|split; [|split; [exact G3|]]].
  - intros l m P x y. unfold merged; cbn. split; apply Perm, Permutation_map, P.
  - intros l m. pose proof (G3 [l; m]) as G. cbn [concat map] in G. rewrite app_nil_r in G. exact G.
  - intros [c rr] [N1 N2]. unfold merged; cbn [map capacitances resistances] in *. rewrite !merge_single by assumption. reflexivity.
Qed.
Print Assumptions C12_merge_laws.
Definition cell2 := with_networks (add_caps ops1) [RNetwork [RNode 1 "A"; RNode 2 "V"] [RElement 1 2 (Q2Qc 3)]].
Example C12_nontrivial : exists sums, Forall2 (fun c s => cell_summarize c = Some s) (dvals [("x", cell2); ("y", add_caps ops1)]) sums.
Proof. eexists. cbn. repeat constructor. Qed.

(** ** C13 *)
(** The entry of a net pair is the plain sum over all elements; summarizing raises
    exactly when an element refers to an unknown node. *)
Theorem C13_resistances_sum : forall c,
  (cell_summarize c = None <-> resistor_reports (r_networks c) = None) /\
  (forall sm, cell_summarize c = Some sm -> exists reps, resistor_reports (r_networks c) = Some reps /\
     forall x y, (mentioned reps x y -> pair_value (resistances sm) x y = Some (reported reps x y)) /\
                 (~ mentioned reps x y -> pair_value (resistances sm) x y = None)).
Proof.
  intros c. split; [apply cell_summarize_none|]. intros sm E. destruct (cell_resistances _ E) as (r & R & _ & V).
  exists r. split; [exact R|]. intros x y. rewrite V, reported_ksum, mentioned_hits.
  destruct (hits r x y); split; congruence || (intros C; destruct (C eq_refl)).
Qed.
Print Assumptions C13_resistances_sum.
(** resistance of resistors in parallel *)
Definition parallel (r1 r2 : Qc) : Qc := r1 * r2 / (r1 + r2).
Theorem C13_parallel_refuted : exists c sm,
  r_networks c = [RNetwork [RNode 1 "A"; RNode 2 "B"] [RElement 1 2 (Q2Qc 2); RElement 1 2 (Q2Qc 2)]] /\
  cell_summarize c = Some sm /\
  pair_value (resistances sm) "A" "B" = Some (Q2Qc 4) /\ parallel (Q2Qc 2) (Q2Qc 2) = 1.
Proof.
  set (c := with_networks new_cell [RNetwork [RNode 1 "A"; RNode 2 "B"] [RElement 1 2 (Q2Qc 2); RElement 1 2 (Q2Qc 2)]]).
  destruct (cell_summarize c) as [sm|] eqn:E.
  - exists c, sm. split; [reflexivity|]. split; [exact E|]. split; [|qceq].
    destruct (cell_resistances _ E) as (r & R & _ & V). rewrite V. injection R as <-.
    replace (hits _ "A" "B") with true by reflexivity. apply f_equal. qceq.
  - apply cell_summarize_none in E. discriminate.
Qed.
Print Assumptions C13_parallel_refuted.
Example C13_nontrivial : exists sm, cell_summarize cell2 = Some sm /\ resistor_reports (r_networks cell2) = Some [("A", "V", Q2Qc 3)].
Proof. eexists. split; reflexivity. Qed.
