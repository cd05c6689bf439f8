From Coq Require Import String Permutation.
From Verif Require Import PyBase PyLib ER_Model ER_Spec.
Set Implicit Arguments.
Local Open Scope Qc_scope.

(** ** normed keys *)
Lemma same_nets_spec x y a b : same_nets x y a b = true <-> (x = a /\ y = b) \/ (x = b /\ y = a).
Proof. unfold same_nets. rewrite orb_true_iff, !andb_true_iff, !eqb_true. tauto. Qed.
Lemma same_nets_swap x y a b : same_nets x y a b = same_nets x y b a.
Proof. unfold same_nets. apply orb_comm. Qed.
Lemma same_nets_swap2 x y a b : same_nets x y a b = same_nets y x a b.
Proof. unfold same_nets. rewrite orb_comm. f_equal; apply andb_comm. Qed.

Lemma normed_order k : strlt (snd (normed k)) (fst (normed k)) = false.
Proof.
  unfold normed. destruct k as [a b]; cbn. destruct (strlt a b) eqn:E; cbn; [apply strlt_asym, E|exact E].
Qed.
Lemma normed_cases k : normed k = k \/ normed k = (snd k, fst k).
Proof. unfold normed. destruct (strlt (fst k) (snd k)); auto. Qed.
Lemma normed_id a b : strlt b a = false -> normed (a, b) = (a, b).
Proof.
  intros L. unfold normed; cbn. destruct (strlt a b) eqn:E; [reflexivity|].
  destruct (strlt_total a b) as [C|[->|C]]; congruence.
Qed.
Lemma normed_idem k : normed (normed k) = normed k.
Proof. rewrite (surjective_pairing (normed k)). apply normed_id, normed_order. Qed.
Lemma normed_swap a b : normed (a, b) = normed (b, a).
Proof.
  unfold normed; cbn. destruct (strlt a b) eqn:E.
  - rewrite (strlt_asym _ _ E). reflexivity.
  - destruct (strlt b a) eqn:E2; [reflexivity|]. destruct (strlt_total a b) as [C|[->|C]]; congruence.
Qed.
Lemma normed_same a b x y : normed (a, b) = normed (x, y) <-> same_nets x y a b = true.
Proof.
  rewrite same_nets_spec. split.
  - intros E. destruct (normed_cases (a, b)) as [A|A], (normed_cases (x, y)) as [B|B]; rewrite A, B in E;
    cbn in E; injection E as -> ->; auto.
  - intros [[-> ->]|[-> ->]]; [reflexivity|apply normed_swap].
Qed.
Lemma same_nets_normed x y k : same_nets x y (fst (normed k)) (snd (normed k)) = same_nets x y (fst k) (snd k).
Proof. destruct (normed_cases k) as [->| ->]; [reflexivity|]. cbn. apply same_nets_swap. Qed.

(** ** total and presence of a pair in a list of keyed values *)
Definition netsum (l : list (couple * Qc)) (x y : string) : Qc := ksum (fun k => same_nets x y (fst k) (snd k)) l.
Definition kany {K V} (P : K -> bool) (l : list (K * V)) : bool := existsb (fun e => P (fst e)) l.
Definition hits {V} (l : list (couple * V)) (x y : string) : bool := kany (fun k => same_nets x y (fst k) (snd k)) l.

Lemma kany_dset {K V} `{EqDec K} P (d : dict K V) k v : kany P (dset d k v) = kany P d || P k.
Proof.
  unfold kany. induction d as [|[k' v'] t IH]; cbn; [rewrite orb_false_r; reflexivity|].
  destruct (eq_dec k k') as [->|N]; cbn.
  - destruct (P k'), (existsb (fun e => P (fst e)) t); reflexivity.
  - rewrite IH. apply orb_assoc.
Qed.
Lemma kany_accum {K} `{EqDec K} P l : forall (d : dict K Qc), kany P (accum l d) = kany P d || kany P l.
Proof.
  induction l as [|[k v] l IH]; intros d; cbn [accum fold_left]; [cbn; rewrite orb_false_r; reflexivity|].
  unfold accum in IH. rewrite IH. unfold dadd. cbn. rewrite kany_dset. rewrite orb_assoc. reflexivity.
Qed.
Lemma kany_app {K V} (P : K -> bool) (l m : list (K * V)) : kany P (l ++ m) = kany P l || kany P m.
Proof. apply existsb_app. Qed.
Lemma existsb_ext_in {A} (f g : A -> bool) l : (forall x, In x l -> f x = g x) -> existsb f l = existsb g l.
Proof. induction l as [|a l IH]; intros E; cbn; [reflexivity|]. rewrite E, IH; auto; [intros; apply E; right; auto|left; auto]. Qed.
Lemma existsb_map {A B} (f : B -> bool) (g : A -> B) l : existsb f (map g l) = existsb (fun x => f (g x)) l.
Proof. induction l as [|a l IH]; cbn; [reflexivity|]. rewrite IH. reflexivity. Qed.
Lemma kany_ext {K V} (P Q : K -> bool) (l : list (K * V)) : (forall k, P k = Q k) -> kany P l = kany Q l.
Proof. intros E. apply existsb_ext_in. intros; apply E. Qed.

Definition norm_entries (l : list (couple * Qc)) := map (fun e => (normed (fst e), snd e)) l.
Lemma netsum_norm l x y : netsum (norm_entries l) x y = netsum l x y.
Proof.
  unfold netsum, norm_entries, ksum. rewrite qsumf_map. apply qsumf_ext. intros e _. cbn.
  rewrite same_nets_normed. reflexivity.
Qed.
Lemma hits_norm l x y : hits (norm_entries l) x y = hits l x y.
Proof.
  unfold hits, kany, norm_entries. rewrite existsb_map. apply existsb_ext_in. intros e _. cbn.
  apply same_nets_normed.
Qed.
Lemma total_norm l : qsumf snd (norm_entries l) = qsumf snd l.
Proof. unfold norm_entries. rewrite qsumf_map. reflexivity. Qed.

Lemma fold_norm l : forall d, fold_left (fun d e => dadd d (normed (fst e)) (snd e)) l d = accum (norm_entries l) d.
Proof. induction l as [|e l IH]; intros d; cbn; [reflexivity|]. apply IH. Qed.
Lemma accum_app {K} `{EqDec K} l m (d : dict K Qc) : accum (l ++ m) d = accum m (accum l d).
Proof. apply fold_left_app. Qed.
Lemma merge_table_acc ts : merge_table ts = accum (norm_entries (concat ts)) [].
Proof.
  unfold merge_table. generalize (@nil (couple * Qc)). induction ts as [|t ts IH]; intros d; [reflexivity|].
  cbn [fold_left concat]. rewrite fold_norm, IH. unfold norm_entries. rewrite map_app, accum_app. reflexivity.
Qed.
Lemma total_ksum (l : list (couple * Qc)) : qsumf snd l = ksum (fun _ => true) l.
Proof. reflexivity. Qed.

Lemma accum_normal l : normal_table (accum (norm_entries l) []).
Proof.
  split; [apply accum_wf; constructor|]. intros a b J. apply accum_keys in J. destruct J as [[]|J].
  unfold norm_entries in J. rewrite map_map in J. apply in_map_iff in J. destruct J as [e [E _]]. cbn in E.
  pose proof (normed_order (fst e)) as O. rewrite E in O. exact O.
Qed.
Lemma merge_normal ts : normal_table (merge_table ts).
Proof. rewrite merge_table_acc. apply accum_normal. Qed.

(** reading a normal table *)
Lemma pair_value_normal d x y : normal_table d ->
  pair_value d x y = (if hits d x y then Some (netsum d x y) else None) /\
  (strlt y x = false -> dget d (x, y) = pair_value d x y) /\
  (strlt y x = true -> dget d (x, y) = None).
Proof.
  intros [W O].
  assert (Key : forall k, In k (dkeys d) -> same_nets x y (fst k) (snd k) = eqb k (normed (x, y))).
  { intros [a b] J. apply O in J. cbn. destruct (same_nets x y a b) eqn:S.
    - symmetry. apply eqb_true. apply normed_same in S. rewrite normed_id in S by exact J. exact S.
    - symmetry. apply eqb_false. intros E. rewrite <- (normed_id _ _ J) in E. apply normed_same in E. congruence. }
  assert (V : netsum d x y = dgetd d (normed (x, y))).
  { unfold netsum. rewrite (ksum_ext _ (fun k => eqb k (normed (x, y)))) by exact Key. apply ksum_dget, W. }
  assert (Hh : hits d x y = dmem d (normed (x, y))).
  { unfold hits, kany. rewrite (existsb_ext_in (fun e => same_nets x y (fst (fst e)) (snd (fst e)))
      (fun e => eqb (fst e) (normed (x, y)))).
    - destruct (dmem d (normed (x, y))) eqn:M.
      + apply dmem_true in M. apply in_map_iff in M. destruct M as [e [E J]]. apply existsb_exists. exists e.
        split; [exact J|]. apply eqb_true, E.
      + apply dmem_false, dget_None in M. apply not_true_is_false; intros X.
        apply existsb_exists in X. destruct X as [e [J E]]. apply eqb_eq in E. exfalso. apply M. rewrite <- E.
        apply in_map, J.
    - intros e J. apply Key. apply in_map, J. }
  assert (Bad : strlt y x = true -> dget d (x, y) = None).
  { intros L. apply dget_None. intros J. apply O in J. congruence. }
  split; [|split; [|exact Bad]].
  - rewrite Hh, V. unfold pair_value. destruct (strlt y x) eqn:L.
    + rewrite Bad by reflexivity. rewrite (normed_swap x y), normed_id by apply strlt_asym, L.
      unfold dgetd, dmem. destruct (dget d (y, x)); reflexivity.
    + rewrite normed_id by exact L. unfold dgetd, dmem. destruct (dget d (x, y)) eqn:E; [reflexivity|].
      destruct (strlt_total x y) as [C|[->|C]]; [|exact E|congruence].
      apply dget_None. intros J. apply O in J. congruence.
  - intros L. unfold pair_value. destruct (dget d (x, y)) eqn:E; [reflexivity|].
    destruct (strlt_total x y) as [C|[->|C]]; [|symmetry; exact E|congruence].
    symmetry. apply dget_None. intros J. apply O in J. congruence.
Qed.

(** ** tables of caps *)
Section Table.
Context {K C : Type} `{EqDec K} (nets : K -> couple) (value : C -> Qc).
Definition table_entries (t : dict K (list C)) : list (couple * Qc) :=
  map (fun e => (nets (fst e), qsum (map value (snd e)))) t.
Lemma table_summary_acc t : table_summary nets value t = accum (norm_entries (table_entries t)) [].
Proof.
  unfold table_summary. generalize (@nil (couple * Qc)). induction t as [|e t IH]; intros d; [reflexivity|]. cbn. apply IH.
Qed.
Definition psum (P : couple -> bool) (t : dict K (list C)) : Qc := ksum P (table_entries t).
Lemma psum_dappend P t k c : psum P (dappend t k c) = psum P t + (if P (nets k) then value c else 0).
Proof.
  unfold psum, ksum, table_entries, dappend. rewrite !qsumf_map. cbn.
  induction t as [|[k' l] t IH]; cbn [dset dget].
  - rewrite qsumf_cons, !qsumf_nil. cbn. destruct (P (nets k)); ring.
  - destruct (eq_dec k k') as [->|N].
    + rewrite !qsumf_cons. cbn. destruct (P (nets k')); [|ring].
      rewrite map_app. cbn [map].
      assert (A : qsum (map value l ++ [value c]) = qsum (map value l) + value c).
      { clear. induction (map value l) as [|a m IH]; cbn; [ring|]. rewrite IH. ring. }
      rewrite A. ring.
    + rewrite !qsumf_cons. rewrite IH. cbn. ring.
Qed.
Lemma kany_dappend P (t : dict K (list C)) k c : kany P (table_entries (dappend t k c)) = kany P (table_entries t) || P (nets k).
Proof.
  unfold table_entries. unfold kany. rewrite !existsb_map. unfold dappend.
  exact (kany_dset (fun x => P (nets x)) t k _).
Qed.
End Table.

(** ** the whole cell *)
Definition cell_entries (c : cell_results) : list (couple * Qc) :=
  table_entries overlap_nets ov_value (overlap_table c)
  ++ table_entries sidewall_nets sw_value (sidewall_table c)
  ++ table_entries sideoverlap_nets so_value (sideoverlap_table c).
Definition rep_entries (l : list report) : list (couple * Qc) := map (fun r => (fst r, snd r)) l.
Lemma rep_entries_id l : rep_entries l = l.
Proof. unfold rep_entries. rewrite <- (map_id l) at 2. apply map_ext. intros [? ?]; reflexivity. Qed.

Definition Pinv (P : couple -> bool) : Prop := forall a b, P (a, b) = P (b, a).

Lemma add_step_sum P c o : Pinv P -> ksum P (cell_entries (add_step c o)) = ksum P (cell_entries c) + ksum P [report_of o].
Proof.
  intros I. unfold cell_entries. rewrite !ksum_app. unfold ksum at 7. rewrite qsumf_cons, qsumf_nil.
  destruct o as [x|x|x]; cbn [add_step add_overlap_cap add_sidewall_cap add_sideoverlap_cap
    overlap_table sidewall_table sideoverlap_table report_of].
  - pose proof (psum_dappend overlap_nets ov_value P (overlap_table c) (ov_key x) x) as E. unfold psum in E. rewrite E.
    destruct (ov_key x) as [[[lt top] lb] bot]. cbn. rewrite (I bot top). destruct (P (top, bot)); ring.
  - pose proof (psum_dappend sidewall_nets sw_value P (sidewall_table c) (sw_key x) x) as E. unfold psum in E. rewrite E.
    destruct (sw_key x) as [[l n1] n2]. cbn. destruct (P (n1, n2)); ring.
  - pose proof (psum_dappend sideoverlap_nets so_value P (sideoverlap_table c) (so_key x) x) as E. unfold psum in E. rewrite E.
    destruct (so_key x) as [[[lt ins] lb] out]. cbn. destruct (P (ins, out)); ring.
Qed.
Lemma add_step_any P c o : Pinv P -> kany P (cell_entries (add_step c o)) = kany P (cell_entries c) || P (fst (report_of o)).
Proof.
  intros I. unfold cell_entries. rewrite !kany_app.
  destruct o as [x|x|x]; cbn [add_step add_overlap_cap add_sidewall_cap add_sideoverlap_cap
    overlap_table sidewall_table sideoverlap_table report_of]; rewrite kany_dappend.
  - destruct (ov_key x) as [[[lt top] lb] bot]. cbn. rewrite (I bot top).
    destruct (P (top, bot)), (kany P (table_entries overlap_nets ov_value (overlap_table c))),
      (kany P (table_entries sidewall_nets sw_value (sidewall_table c))),
      (kany P (table_entries sideoverlap_nets so_value (sideoverlap_table c))); reflexivity.
  - destruct (sw_key x) as [[l n1] n2]. cbn.
    destruct (P (n1, n2)), (kany P (table_entries overlap_nets ov_value (overlap_table c))),
      (kany P (table_entries sidewall_nets sw_value (sidewall_table c))),
      (kany P (table_entries sideoverlap_nets so_value (sideoverlap_table c))); reflexivity.
  - destruct (so_key x) as [[[lt ins] lb] out]. cbn.
    destruct (P (ins, out)), (kany P (table_entries overlap_nets ov_value (overlap_table c))),
      (kany P (table_entries sidewall_nets sw_value (sidewall_table c))),
      (kany P (table_entries sideoverlap_nets so_value (sideoverlap_table c))); reflexivity.
Qed.
Lemma add_caps_sum P l : Pinv P -> forall c, ksum P (cell_entries (fold_left add_step l c)) =
  ksum P (cell_entries c) + ksum P (map report_of l).
Proof.
  intros I. induction l as [|o l IH]; intros c; cbn [fold_left map].
  - unfold ksum at 3. rewrite qsumf_nil. ring.
  - rewrite IH, add_step_sum by exact I. rewrite (ksum_cons P (report_of o) (map report_of l)).
    unfold ksum at 2. rewrite qsumf_cons, qsumf_nil. ring.
Qed.
Lemma add_caps_any P l : Pinv P -> forall c, kany P (cell_entries (fold_left add_step l c)) =
  kany P (cell_entries c) || kany P (map report_of l).
Proof.
  intros I. induction l as [|o l IH]; intros c; cbn [fold_left map].
  - cbn. rewrite orb_false_r. reflexivity.
  - rewrite IH, add_step_any by exact I. cbn. rewrite orb_assoc. reflexivity.
Qed.
Lemma add_caps_r l c : r_networks (fold_left add_step l c) = r_networks c.
Proof. revert c. induction l as [|[x|x|x] l IH]; intros c; cbn; [reflexivity| | |]; rewrite IH; reflexivity. Qed.

Lemma cell_summary_caps c sm : cell_summarize c = Some sm ->
  normal_table (capacitances sm) /\
  (forall P, Pinv P -> ksum P (capacitances sm) = ksum P (cell_entries c) /\ kany P (capacitances sm) = kany P (cell_entries c)).
Proof.
  unfold cell_summarize. destruct (resistance_table (r_networks c) []) as [r|] eqn:R; [|discriminate].
  intros [= <-]. cbn [capacitances merged map]. split; [apply merge_normal|]. intros P I.
  assert (NS : forall l, ksum P (norm_entries l) = ksum P l /\ kany P (norm_entries l) = kany P l).
  { intros l. assert (Q : forall k, P (normed k) = P k).
    { intros [a b]. destruct (normed_cases (a, b)) as [->| ->]; [reflexivity|]. cbn. apply I. }
    split.
    - unfold ksum, norm_entries. rewrite qsumf_map. apply qsumf_ext. intros e _. cbn. rewrite Q. reflexivity.
    - unfold kany, norm_entries. rewrite existsb_map. apply existsb_ext_in. intros e _. cbn. apply Q. }
  assert (AS : forall l, ksum P (accum (norm_entries l) []) = ksum P l /\ kany P (accum (norm_entries l) []) = kany P l).
  { intros l. rewrite ksum_accum, kany_accum. destruct (NS l) as [-> ->]. split; [unfold ksum at 1; rewrite qsumf_nil; ring|reflexivity]. }
  rewrite merge_table_acc. rewrite (proj1 (AS _)), (proj2 (AS _)).
  cbn [concat]. unfold cell_entries. rewrite !ksum_app, !kany_app, !table_summary_acc.
  rewrite !(fun l => proj1 (AS l)), !(fun l => proj2 (AS l)).
  split; [rewrite ?ksum_nil; ring|cbn; rewrite orb_false_r; reflexivity].
Qed.

Lemma Pinv_same x y : Pinv (fun k => same_nets x y (fst k) (snd k)).
Proof. intros a b. cbn. apply same_nets_swap. Qed.

Lemma reported_ksum l x y : reported l x y = netsum l x y.
Proof. unfold reported, netsum, ksum. apply qsumf_ext. intros [[a b] v] _. reflexivity. Qed.
Lemma mentioned_hits (l : list report) x y : mentioned l x y <-> hits l x y = true.
Proof.
  unfold mentioned, hits, kany. rewrite existsb_exists. split.
  - intros (a & b & v & J & S). exists (a, b, v). auto.
  - intros ([[a b] v] & J & S). exists a, b, v. auto.
Qed.

(** the value of each pair in a cell summary *)
Lemma cell_pair_value c sm x y : cell_summarize c = Some sm ->
  pair_value (capacitances sm) x y = if hits (cell_entries c) x y then Some (netsum (cell_entries c) x y) else None.
Proof.
  intros E. destruct (cell_summary_caps _ E) as [N H]. destruct (pair_value_normal x y N) as [V _].
  rewrite V. destruct (H _ (Pinv_same x y)) as [H1 H2]. unfold hits, netsum. rewrite H1, H2. reflexivity.
Qed.
Lemma add_caps_pair l r x y sm c : c = add_caps l ->
  cell_summarize (CellResults (overlap_table c) (sidewall_table c) (sideoverlap_table c) r) = Some sm ->
  pair_value (capacitances sm) x y =
    if hits (map report_of l) x y then Some (netsum (map report_of l) x y) else None.
Proof.
  intros -> E. rewrite (cell_pair_value _ x y E).
  set (c' := CellResults _ _ _ r). assert (Q : cell_entries c' = cell_entries (add_caps l)) by reflexivity.
  rewrite Q. unfold hits, netsum, add_caps.
  rewrite add_caps_sum, add_caps_any by apply Pinv_same. cbn [cell_entries new_cell overlap_table sidewall_table sideoverlap_table table_entries map app].
  unfold ksum at 1. rewrite qsumf_nil. unfold kany at 1. cbn [existsb orb].
  replace (0 + ksum (fun k => same_nets x y (fst k) (snd k)) (map report_of l))
    with (ksum (fun k => same_nets x y (fst k) (snd k)) (map report_of l)) by ring. reflexivity.
Qed.

(** ** merging *)
Lemma merge_pair ts x y : pair_value (merge_table ts) x y =
  if hits (concat ts) x y then Some (netsum (concat ts) x y) else None.
Proof.
  destruct (pair_value_normal x y (merge_normal ts)) as [V _]. rewrite V, merge_table_acc.
  unfold hits, netsum. rewrite ksum_accum, kany_accum. fold (netsum (norm_entries (concat ts)) x y).
  fold (hits (norm_entries (concat ts)) x y). rewrite netsum_norm, hits_norm. cbn [kany existsb orb].
  unfold ksum at 1. rewrite qsumf_nil. replace (0 + netsum (concat ts) x y) with (netsum (concat ts) x y) by ring. reflexivity.
Qed.
Lemma merge_single d : normal_table d -> merge_table [d] = d.
Proof.
  intros [W O]. rewrite merge_table_acc. cbn [concat]. rewrite app_nil_r.
  assert (E : norm_entries d = d).
  { unfold norm_entries. rewrite <- (map_id d) at 2. apply map_ext_in. intros [[a b] v] J. cbn [fst snd].
    rewrite normed_id; [reflexivity|]. apply O. apply (in_map fst) in J. exact J. }
  rewrite E, accum_fresh; [reflexivity|exact W|intros k _ []].
Qed.

(** ** resistances *)
Lemma node_by_id_get n i : match dget (node_by_id n) i with Some a => Some (rn_net a) | None => None end = net_of n i.
Proof.
  unfold node_by_id, net_of.
  assert (G : forall l d, dget (fold_left (fun d x => dset d (rn_id x) x) l d) i =
     match find (fun x => Nat.eqb (rn_id x) i) (rev l) with Some x => Some x | None => dget d i end).
  { induction l as [|a l IH] using rev_ind; intros d; [reflexivity|].
    rewrite fold_left_app, rev_app_distr. cbn [fold_left rev app find]. rewrite dget_dset.
    destruct (Nat.eqb_spec (rn_id a) i) as [<-|N].
    - destruct (eq_dec (rn_id a) (rn_id a)); [reflexivity|congruence].
    - destruct (eq_dec i (rn_id a)); [congruence|]. apply IH. }
  rewrite G. destruct (find _ _); reflexivity.
Qed.
Lemma add_elements_spec n l : forall d, add_elements (node_by_id n) l d =
  match all_some (map (element_report n) l) with Some r => Some (accum (norm_entries r) d) | None => None end.
Proof.
  induction l as [|e l IH]; intros d; cbn [add_elements map all_some]; [reflexivity|].
  unfold element_report at 1. rewrite <- !node_by_id_get.
  destruct (dget (node_by_id n) (re_a e)) as [a|]; [|destruct (dget (node_by_id n) (re_b e)); reflexivity].
  destruct (dget (node_by_id n) (re_b e)) as [b|]; [|reflexivity].
  rewrite IH. destruct (all_some (map (element_report n) l)); reflexivity.
Qed.
Lemma all_some_app {A} (l m : list (option A)) : all_some (l ++ m) =
  match all_some l, all_some m with Some a, Some b => Some (a ++ b) | _, _ => None end.
Proof.
  induction l as [|[x|] l IH]; cbn; [destruct (all_some m); reflexivity| |reflexivity].
  rewrite IH. destruct (all_some l), (all_some m); reflexivity.
Qed.
Lemma resistance_table_spec l : forall d, resistance_table l d =
  match resistor_reports l with Some r => Some (accum (norm_entries r) d) | None => None end.
Proof.
  unfold resistor_reports. induction l as [|n l IH]; intros d; cbn [resistance_table flat_map]; [reflexivity|].
  rewrite add_elements_spec, all_some_app. destruct (all_some (map (element_report n) (rnet_elements n))) as [r|]; [|reflexivity].
  rewrite IH. destruct (all_some (flat_map _ l)) as [r2|]; [|reflexivity].
  unfold norm_entries. rewrite map_app, accum_app. reflexivity.
Qed.
Lemma cell_resistances c sm : cell_summarize c = Some sm ->
  exists r, resistor_reports (r_networks c) = Some r /\ normal_table (resistances sm) /\
  forall x y, pair_value (resistances sm) x y = if hits r x y then Some (netsum r x y) else None.
Proof.
  unfold cell_summarize. rewrite resistance_table_spec.
  destruct (resistor_reports (r_networks c)) as [r|]; [|discriminate]. intros [= <-]. exists r. split; [reflexivity|].
  cbn [resistances merged map]. split; [apply merge_normal|]. intros x y. rewrite merge_pair. cbn [concat app].
  rewrite app_nil_r. unfold hits, netsum. rewrite kany_accum, ksum_accum.
  fold (netsum (norm_entries r) x y). fold (hits (norm_entries r) x y). rewrite netsum_norm, hits_norm. cbn [kany existsb orb].
  unfold ksum. rewrite qsumf_nil. replace (0 + netsum r x y) with (netsum r x y) by ring. reflexivity.
Qed.
Lemma cell_summarize_none c : cell_summarize c = None <-> resistor_reports (r_networks c) = None.
Proof.
  unfold cell_summarize. rewrite resistance_table_spec. destruct (resistor_reports (r_networks c)); split; congruence.
Qed.
