(** The whole sweep: builder calls, levels, and the invariant of the generator. *)
From Coq Require Import String Sorted Permutation.
From Verif Require Import PyBase PyLib SW_Model SW_Spec SW_Proofs SW_Sweep.

(** ** sorted levels *)
Lemma insert_sorted x l : StronglySorted Z.lt l -> ~ In x l -> StronglySorted Z.lt (insert Z.ltb x l).
Proof.
  induction l as [|y t IH]; cbn; intros S N; [repeat constructor|]. inversion S as [|? ? S1 S2]; subst.
  destruct (Z.ltb y x) eqn:E.
  - constructor; [apply IH; tauto|]. apply Z.ltb_lt in E. apply Forall_forall. intros u J.
    apply (Permutation_in _ (Permutation_sym (insert_perm Z.ltb x t))) in J. destruct J as [<-|J]; [exact E|].
    apply (proj1 (Forall_forall _ _) S2), J.
  - apply Z.ltb_ge in E. assert (x < y)%Z by (assert (x <> y) by (intros ->; apply N; left; reflexivity); lia). constructor; [exact S|].
    constructor; [assumption|]. apply Forall_forall. intros u J. pose proof (proj1 (Forall_forall _ _) S2 u J). lia.
Qed.
Lemma sorted_ok l : NoDup l -> StronglySorted Z.lt (py_sorted Z.ltb l).
Proof.
  induction 1 as [|x t N1 N2 IH]; cbn; [constructor|]. apply insert_sorted; [exact IH|]. rewrite In_py_sorted. exact N1.
Qed.
Lemma sorted_app (l1 l2 : list Z) x y : StronglySorted Z.lt (l1 ++ x :: l2) ->
  (In y l1 -> y < x)%Z /\ (In y l2 -> x < y)%Z.
Proof.
  induction l1 as [|u t IH]; cbn; intros S; inversion S as [|? ? S1 S2]; subst.
  - split; [contradiction|]. apply (proj1 (Forall_forall _ _) S2).
  - destruct (IH S1) as [I1 I2]. split; [|exact I2]. intros [<-|J]; [|exact (I1 J)].
    apply (proj1 (Forall_forall _ _) S2). apply in_or_app. right; left; reflexivity.
Qed.
Lemma sorted_NoDup (l : list Z) : StronglySorted Z.lt l -> NoDup l.
Proof.
  induction 1 as [|x t S IH F]; constructor; [|exact IH]. intros J. pose proof (proj1 (Forall_forall _ _) F x J). lia.
Qed.

(** ** builder calls *)
Section Calls.
Context {face : Type} `{EqDec face}.
Variable dbu : Qc.
Notation call := (@call face).
Notation builder := (@builder face).

Lemma firsts_snoc {A} `{EqDec A} (l : list A) x : forall seen,
  firsts seen (l ++ [x]) = firsts seen l ++ (if existsb (eqb x) (seen ++ l) then [] else [x]).
Proof.
  induction l as [|y t IH]; intros seen; cbn.
  - rewrite app_nil_r. destruct (existsb (eqb x) seen); reflexivity.
  - destruct (existsb (eqb y) seen) eqn:E; rewrite IH.
    + f_equal. rewrite !existsb_app. cbn. destruct (existsb (eqb x) seen) eqn:E1; [reflexivity|]. cbn.
      destruct (eqb x y) eqn:E2; [|reflexivity]. apply eqb_eq in E2. subst. congruence.
    + cbn. f_equal. f_equal. rewrite !existsb_app. cbn. destruct (eqb x y), (existsb (eqb x) seen); reflexivity.
Qed.
Lemma firsts_In {A} `{EqDec A} (l : list A) x : forall seen, In x (firsts seen l) <-> In x l /\ ~ In x seen.
Proof.
  induction l as [|y t IH]; intros seen; cbn; [tauto|].
  destruct (existsb (eqb y) seen) eqn:E.
  - rewrite IH. apply existsb_exists in E. destruct E as (u & J & E). apply eqb_eq in E. subst u. intuition congruence.
  - assert (~ In y seen). { intros J. assert (X : existsb (eqb y) seen = true) by (apply existsb_exists; exists y; split; [exact J|apply eqb_refl]). congruence. }
    cbn. rewrite IH. cbn. destruct (eq_dec x y) as [->|D]; intuition congruence.
Qed.
Lemma firsts_NoDup {A} `{EqDec A} (l : list A) : forall seen, NoDup (firsts seen l).
Proof.
  induction l as [|y t IH]; intros seen; cbn; [constructor|]. destruct (existsb (eqb y) seen); [apply IH|].
  constructor; [|apply IH]. rewrite firsts_In. cbn. tauto.
Qed.
Lemma existsb_In {A} `{EqDec A} (x : A) l : existsb (eqb x) l = true <-> In x l.
Proof.
  rewrite existsb_exists. split; [intros (y & J & E); apply eqb_eq in E; subst; exact J|].
  intros J. exists x. split; [exact J|apply eqb_refl].
Qed.

Definition layers_of (b : builder) (k : mkey) : list (@layer face) :=
  match k with
  | Net n => match dget (clayers b) n with Some l => l | None => [] end
  | Mat m => match dget (dlayers b) m with Some l => l | None => [] end
  end.
Definition added (cs : list call) (k : mkey) : list (@layer face) :=
  flat_map (fun c => match call_adds dbu c k with Some l => [l] | None => [] end) cs.

Record described (cs : list call) (b : builder) : Prop := De {
  de_nets : dkeys (clayers b) = nets_of cs;
  de_mats : b_materials b = materials_of cs;
  de_layers : forall k, layers_of b k = added cs k;
  de_wf : dwf (clayers b) /\ dwf (dlayers b);
  de_known : forall m, In m (dkeys (dlayers b)) -> In m (b_materials b) }.

Lemma dkeys_push (d : dict string (list (@layer face))) n l :
  dkeys (push d n l) = dkeys d ++ (if existsb (eqb n) (dkeys d) then [] else [n]).
Proof.
  unfold push. destruct (existsb (eqb n) (dkeys d)) eqn:E.
  - apply existsb_In in E. rewrite dkeys_dset_present, app_nil_r by exact E. reflexivity.
  - rewrite dkeys_dset_absent; [unfold dkeys; rewrite map_app; reflexivity|]. intros J. apply existsb_In in J. congruence.
Qed.
Lemma get_push (d : dict string (list (@layer face))) n l n' :
  match dget (push d n l) n' with Some x => x | None => [] end =
  match dget d n' with Some x => x | None => [] end ++ (if eqb n n' then [l] else []).
Proof.
  unfold push. rewrite dget_dset. destruct (eq_dec n' n) as [->|D].
  - rewrite eqb_refl. reflexivity.
  - rewrite (proj2 (eqb_false n n')) by congruence. rewrite app_nil_r. reflexivity.
Qed.
Lemma existsb_firsts {A} `{EqDec A} (x : A) l : existsb (eqb x) (firsts [] l) = existsb (eqb x) l.
Proof. apply eq_true_iff_eq. rewrite !existsb_In, firsts_In. cbn. tauto. Qed.

Lemma build_described cs b : build dbu cs = Some b -> described cs b.
Proof.
  revert b. induction cs as [|c cs IH] using rev_ind; intros b.
  - cbn. intros [= <-]. split; cbn; try reflexivity; try (split; constructor); try contradiction. intros [n|m]; reflexivity.
  - unfold build. rewrite fold_left_app. cbn. fold (build dbu cs). destruct (build dbu cs) as [b0|] eqn:E; [|discriminate].
    specialize (IH b0 eq_refl). destruct IH as [I1 I2 I3 [I4 I5] I6]. unfold do_call.
    assert (Ap : forall k, added (cs ++ [c]) k = added cs k ++ match call_adds dbu c k with Some l => [l] | None => [] end).
    { intros k. unfold added. rewrite flat_map_app. cbn. rewrite app_nil_r. reflexivity. }
    destruct c as [m|n r z h|m r z h].
    + intros [= <-]. split; cbn [clayers dlayers add_material b_materials].
      * rewrite I1. unfold nets_of. rewrite flat_map_app. cbn. rewrite app_nil_r. reflexivity.
      * unfold materials_of. rewrite flat_map_app. cbn. rewrite firsts_snoc. fold (materials_of cs).
        cbn [app]. rewrite I2. unfold materials_of at 1. rewrite existsb_firsts.
        destruct (existsb _ (flat_map _ cs)); [rewrite app_nil_r|]; reflexivity.
      * intros k. rewrite Ap, <- I3. cbn. rewrite app_nil_r. destruct k; reflexivity.
      * split; assumption.
      * intros m' J. apply I6 in J. destruct (existsb (eqb m) (b_materials b0)); [exact J|apply in_or_app; auto].
    + intros [= <-]. split; cbn [clayers dlayers add_conductor b_materials].
      * rewrite dkeys_push, I1. unfold nets_of at 3. rewrite flat_map_app. cbn. rewrite firsts_snoc. fold (nets_of cs).
        cbn [app]. unfold nets_of at 2. rewrite existsb_firsts. reflexivity.
      * rewrite I2. unfold materials_of. rewrite flat_map_app. cbn. rewrite app_nil_r. reflexivity.
      * intros k. rewrite Ap, <- I3. destruct k as [n'|m']; cbn; [rewrite get_push|rewrite app_nil_r]; [|reflexivity].
        destruct (eqb n n'); reflexivity.
      * split; [apply dwf_dset, I4|exact I5].
      * exact I6.
    + unfold add_dielectric. destruct (existsb (eqb m) (b_materials b0)) eqn:Em; [|discriminate].
      intros [= <-]. split; cbn [clayers dlayers b_materials].
      * rewrite I1. unfold nets_of. rewrite flat_map_app. cbn. rewrite app_nil_r. reflexivity.
      * rewrite I2. unfold materials_of. rewrite flat_map_app. cbn. rewrite app_nil_r. reflexivity.
      * intros k. rewrite Ap, <- I3. destruct k as [n'|m']; cbn; [rewrite app_nil_r; reflexivity|]. rewrite get_push.
        destruct (eqb m m'); reflexivity.
      * split; [exact I4|apply dwf_dset, I5].
      * intros m' J. apply dkeys_dset_in in J. destruct J as [->|J]; [apply existsb_In, Em|apply I6, J].
Qed.

Lemma priority_NoDup (cs : list call) : NoDup (priority cs).
Proof.
  unfold priority.
  assert (Inj1 : NoDup (map Net (nets_of cs))) by (apply FinFun.Injective_map_NoDup; [intros x y; congruence|apply firsts_NoDup]).
  assert (Inj2 : NoDup (map Mat (materials_of cs))) by (apply FinFun.Injective_map_NoDup; [intros x y; congruence|apply firsts_NoDup]).
  revert Inj1. generalize (nets_of cs). intros l. induction l as [|x t IH]; cbn; intros N; [exact Inj2|].
  inversion N as [|? ? N1 N2]; subst. constructor; [|auto]. rewrite in_app_iff. intros [J|J]; [contradiction|].
  apply in_map_iff in J. destruct J as (y & E & _). discriminate.
Qed.

Lemma added_In cs k l : In l (added cs k) <-> exists c, In c cs /\ call_adds dbu c k = Some l.
Proof.
  unfold added. rewrite in_flat_map. split; intros (c & J & E); exists c; (split; [exact J|]).
  - destruct (call_adds dbu c k); [destruct E as [->|[]]; reflexivity|contradiction].
  - rewrite E. left; reflexivity.
Qed.
Lemma present_above_added cs z p k : present_above dbu cs z p k =
  existsb (fun l : layer => let '(r, z0, z1) := l in (z0 <=? z)%Z && (z <? z1)%Z && has r p) (added cs k).
Proof.
  apply eq_true_iff_eq. unfold present_above. rewrite !existsb_exists. split.
  - intros (c & J & E). destruct (call_adds dbu c k) as [[[r z0] z1]|] eqn:Ec; [|discriminate].
    exists (r, z0, z1). split; [apply added_In; eauto|exact E].
  - intros ([[r z0] z1] & J & E). apply added_In in J. destruct J as (c & J & Ec). exists c. split; [exact J|]. rewrite Ec. exact E.
Qed.
Lemma present_below_added cs z p k : present_below dbu cs z p k =
  existsb (fun l : layer => let '(r, z0, z1) := l in (z0 <? z)%Z && (z <=? z1)%Z && has r p) (added cs k).
Proof.
  apply eq_true_iff_eq. unfold present_below. rewrite !existsb_exists. split.
  - intros (c & J & E). destruct (call_adds dbu c k) as [[[r z0] z1]|] eqn:Ec; [|discriminate].
    exists (r, z0, z1). split; [apply added_In; eauto|exact E].
  - intros ([[r z0] z1] & J & E). apply added_In in J. destruct J as (c & J & Ec). exists c. split; [exact J|]. rewrite Ec. exact E.
Qed.

Lemma z_levels_ok cs b : described cs b ->
  StronglySorted Z.lt (z_levels b) /\ forall z, In z (z_levels b) <-> is_level dbu cs z.
Proof.
  intros [D1 D2 D3 [D4 D5] D6]. split; [apply sorted_ok, NoDup_nodup|].
  intros z. unfold z_levels. rewrite In_py_sorted, nodup_In, in_flat_map. split.
  - intros ([n ls] & J & E). cbn in E. apply in_flat_map in E. destruct E as ([[r z0] z1] & J2 & E). cbn in E.
    assert (A : exists k, In (r, z0, z1) (layers_of b k)).
    { apply in_app_or in J. destruct J as [J|J]; apply In_dget in J; auto; [exists (Mat n)|exists (Net n)]; cbn; rewrite J; exact J2. }
    destruct A as [k A]. rewrite D3 in A. apply added_In in A. destruct A as (c & Jc & Ec).
    exists c, k, r, z0, z1. intuition.
  - intros (c & k & r & z0 & z1 & J & Ec & E).
    assert (A : In (r, z0, z1) (layers_of b k)) by (rewrite D3; apply added_In; eauto).
    destruct k as [n|m]; cbn in A.
    + destruct (dget (clayers b) n) as [ls|] eqn:G; [|contradiction]. exists (n, ls). split; [apply in_or_app; right; apply dget_In, G|].
      apply in_flat_map. exists (r, z0, z1). split; [exact A|]. cbn. intuition.
    + destruct (dget (dlayers b) m) as [ls|] eqn:G; [|contradiction]. exists (m, ls). split; [apply in_or_app; left; apply dget_In, G|].
      apply in_flat_map. exists (r, z0, z1). split; [exact A|]. cbn. intuition.
Qed.

(** presence changes at levels only *)
Lemma present_const cs z1 z2 p k : (z1 < z2)%Z -> (forall z, is_level dbu cs z -> ~ (z1 < z < z2)%Z) ->
  present_below dbu cs z2 p k = present_above dbu cs z1 p k.
Proof.
  intros L N. rewrite present_below_added, present_above_added. apply eq_true_iff_eq. rewrite !existsb_exists.
  split; intros ([[r y0] y1] & J & E); exists (r, y0, y1); (split; [exact J|]);
    assert (L0 : is_level dbu cs y0) by (apply added_In in J; destruct J as (c & Jc & Ec); exists c, k, r, y0, y1; auto);
    assert (L1 : is_level dbu cs y1) by (apply added_In in J; destruct J as (c & Jc & Ec); exists c, k, r, y0, y1; auto);
    pose proof (N _ L0); pose proof (N _ L1);
    rewrite !andb_true_iff in *; destruct E as [[E1 E2] E3]; (split; [|exact E3]); rewrite ?Z.ltb_lt, ?Z.leb_le in *; lia.
Qed.
Lemma present_no_level cs z p k : ~ is_level dbu cs z -> present_below dbu cs z p k = present_above dbu cs z p k.
Proof.
  intros N. rewrite present_below_added, present_above_added. apply eq_true_iff_eq. rewrite !existsb_exists.
  split; intros ([[r y0] y1] & J & E); exists (r, y0, y1); (split; [exact J|]);
    assert (L0 : is_level dbu cs y0) by (apply added_In in J; destruct J as (c & Jc & Ec); exists c, k, r, y0, y1; auto);
    assert (L1 : is_level dbu cs y1) by (apply added_In in J; destruct J as (c & Jc & Ec); exists c, k, r, y0, y1; auto);
    assert (z <> y0) by congruence; assert (z <> y1) by congruence;
    rewrite !andb_true_iff in *; destruct E as [[E1 E2] E3]; (split; [|exact E3]); rewrite ?Z.ltb_lt, ?Z.leb_le in *; lia.
Qed.
Lemma present_first cs z p k : (forall y, is_level dbu cs y -> (z <= y)%Z) -> present_below dbu cs z p k = false.
Proof.
  intros N. rewrite present_below_added. destruct (existsb _ _) eqn:E; [|reflexivity]. apply existsb_exists in E.
  destruct E as ([[r y0] y1] & J & E).
  assert (L0 : is_level dbu cs y0) by (apply added_In in J; destruct J as (c & Jc & Ec); exists c, k, r, y0, y1; auto).
  pose proof (N _ L0). rewrite !andb_true_iff, Z.ltb_lt in E. lia.
Qed.
End Calls.

(** ** finish_z *)
Section Finish.
Context {face : Type} `{EqDec face}.
Context {piece : Type} `{EqDec piece}.
Notation region := (@region face).
Notation gen := (@gen face piece).
#[local] Arguments r_or : simpl never.
#[local] Arguments r_sub : simpl never.
#[local] Arguments has : simpl never.

Lemma sep_ok (l : list region) : forall a n,
  ForallOrdPairs (fun s t => forall p, has s p = true -> has t p = true -> False) l ->
  (forall s p, In s l -> has s p = true -> has a p = true) ->
  snd (fold_left check_step l (a, n)) = n.
Proof.
  induction l as [|s t IH]; intros a n F C; cbn; [reflexivity|]. inversion F as [|? ? F1 F2]; subst.
  rewrite (is_empty_has (r_sub s a)).
  2:{ intros p. rewrite has_sub. destruct (has s p) eqn:E; [|reflexivity]. rewrite (C s p) by (auto using in_eq). reflexivity. }
  apply IH; [exact F2|]. intros s' p J E. rewrite has_sub, (C s' p) by (auto using in_cons). cbn.
  destruct (has s p) eqn:E2; [|reflexivity]. exfalso. apply (proj1 (Forall_forall _ _) F1 s' J p); assumption.
Qed.
Lemma has_union (l : list region) p : forall r, has (fold_left r_or l r) p = has r p || existsb (fun s => has s p) l.
Proof. induction l as [|s t IH]; intros r; cbn; [rewrite orb_false_r; reflexivity|]. rewrite IH, has_or, orb_assoc. reflexivity. Qed.
Lemma sep_dict (d : dict mkey region) (own : face -> option mkey) : dwf d ->
  (forall k, In k (dkeys d) -> forall p, has (dgr d k) p = eqb (own p) (Some k)) -> separation_errors d = 0%nat.
Proof.
  intros W O. unfold separation_errors. apply sep_ok.
  - assert (O' : forall k s, In (k, s) d -> forall p, has s p = eqb (own p) (Some k)).
    { intros k s J p. rewrite <- O by (apply (in_map fst) in J; exact J). unfold dgr. rewrite (In_dget k s W J). reflexivity. }
    clear O. induction d as [|[k s] t IH]; cbn; [constructor|]. inversion W as [|? ? W1 W2]; subst. constructor.
    + apply Forall_forall. intros s' J p E1 E2. apply in_map_iff in J. destruct J as ([k' s''] & <- & J). cbn in E2.
      rewrite (O' k s) in E1 by (left; reflexivity). rewrite (O' k' s'') in E2 by (right; exact J).
      apply eqb_eq in E1, E2. rewrite E1 in E2. injection E2 as ->. apply W1. apply (in_map fst) in J. exact J.
    + apply IH; [exact W2|]. intros k' s' J. apply O'. right; exact J.
  - intros s p J E. rewrite has_union. cbn. apply existsb_exists. eauto.
Qed.
Lemma state_kept (d : dict mkey region) k1 k2 : In k1 (dkeys d) -> In k2 (dkeys d) -> k1 <> k2 -> state_after_check d = d.
Proof. destruct d as [|[k r] [|? ?]]; cbn; [contradiction| |reflexivity]. intros [<-|[]] [<-|[]]. congruence. Qed.

Lemma v_emit z' zz' e r (s : @surface face piece) : vlabel_at z' zz' e s = [] -> verticals z' zz' e (emit_if r s) = [].
Proof. intros E. unfold emit_if. destruct (is_empty r); [reflexivity|]. unfold verticals. cbn. rewrite E. reflexivity. Qed.
Lemma v_hcond_out z' zz' e z n d ms : forall r, verticals z' zz' e (hcond_out z n d ms r : list (@surface face piece)) = [].
Proof. induction ms as [|y t IH]; intros r; cbn [hcond_out]; [apply v_emit; reflexivity|]. rewrite verticals_app, v_emit by reflexivity. apply IH. Qed.
Lemma v_hcond_in z' zz' e z n d ms : forall r, verticals z' zz' e (hcond_in z n d ms r : list (@surface face piece)) = [].
Proof. induction ms as [|y t IH]; intros r; cbn [hcond_in]; [apply v_emit; reflexivity|]. rewrite verticals_app, v_emit by reflexivity. apply IH. Qed.
Lemma v_hdiel_in z' zz' e z n d ms : forall r, verticals z' zz' e (hdiel_in z n d ms r : list (@surface face piece)) = [].
Proof. induction ms as [|y t IH]; intros r; cbn [hdiel_in]; [apply v_emit; reflexivity|]. rewrite verticals_app, v_emit by reflexivity. apply IH. Qed.

Variables (nets mats : list string).
Let names := map Net nets ++ map Mat mats.
Hypothesis Nnames : NoDup names.
Hypothesis Two : (2 <= List.length names)%nat.

Lemma two_keys : exists k1 k2, In k1 names /\ In k2 names /\ k1 <> k2.
Proof.
  destruct names as [|k1 [|k2 t]]; cbn in *; try lia. exists k1, k2. inversion Nnames as [|? ? N1 N2]; subst. cbn in N1.
  intuition.
Qed.

(** the generator between two levels *)
Record good (act : face -> mkey -> bool) (g : gen) : Prop := Good {
  go_shape : forall k, In k names -> shape (pyra_of (current g) k);
  go_cur : forall k, In k names -> forall p, has (first_level (pyra_of (current g) k)) p = act p k;
  go_st : forall k, In k names -> forall p, has (dgr (state g) k) p = eqb (find (act p) names) (Some k);
  go_wf : dwf (state g) /\ forall k, In k (dkeys (state g)) -> In k names }.

Lemma finish_ok (g : gen) (a b : face -> mkey -> bool) :
  good b g ->
  (forall k, In k names -> forall p, has (dgr (layers_in g) k) p = a p k) ->
  (forall k, In k names -> forall p, has (dgr (layers_out g) k) p = b p k) ->
  exists out, let g' := finish_z nets mats g in
    good a g' /\ g_z g' = g_z g /\ errors g' = errors g /\ surfaces g' = surfaces g ++ out /\
    (forall z' p, horizontals z' p out =
       if Z.eqb z' (match g_z g with Some z => z | None => 0%Z end)
       then labels nets mats (inb (a p) (b p) names) (inb (b p) (a p) names) (some_in (a p) (b p) (map Net nets)) (some_in (b p) (a p) (map Net nets)) else []) /\
    (forall z' zz' e, verticals z' zz' e out = []).
Proof.
  intros [G1 G2 G3 G4] Hi Ho.
  pose proof (linv_init (state g) (current g) a b names G4) as L0.
  pose proof (linv_fold (layers_in g) (layers_out g) (state g) (current g) a b names Nnames Hi Ho G1 G2 G3 G4 (map Net nets) [] (map Mat mats) _ eq_refl L0) as L1.
  cbn [app] in L1.
  set (x1 := fold_left (legalize (layers_in g) (layers_out g)) (map Net nets) _) in L1.
  pose proof (linv_fold (layers_in g) (layers_out g) (state g) (current g) a b names Nnames Hi Ho G1 G2 G3 G4 (map Mat mats) (map Net nets) [] x1) as L2.
  rewrite app_nil_r in L2. specialize (L2 eq_refl L1). fold names in L2.
  set (x := fold_left (legalize (layers_in g) (layers_out g)) (map Mat mats) x1) in L2.
  destruct two_keys as (k1 & k2 & J1 & J2 & D).
  assert (Sk : state_after_check (f_state x) = f_state x).
  { apply state_kept with k1 k2; auto; apply (li_pre _ _ _ _ _ _ _ L2); assumption. }
  assert (InM : forall m, In m mats -> In (Mat m) names) by (intros m J; apply in_or_app; right; apply in_map, J).
  assert (InN : forall m, In m nets -> In (Net m) names) by (intros m J; apply in_or_app; left; apply in_map, J).
  eexists. cbn zeta. unfold finish_z. fold x1. fold x. cbn [g_z errors surfaces]. rewrite Sk.
  split; [|split; [reflexivity|split; [|split; [reflexivity|split]]]].
  - destruct L2 as [A1 A2 A3 A4 A5 A6 A7 A8 A9 A10 A11 A12 A13]. split; cbn; auto.
  - rewrite (sep_dict (f_state x) (fun p => find (a p) names)).
    + lia.
    + apply (li_wf _ _ _ _ _ _ _ L2).
    + intros k J p. apply (li_st _ _ _ _ _ _ _ L2). apply (li_keys _ _ _ _ _ _ _ L2), J.
  - intros z' p. set (z := match g_z g with Some z => z | None => 0%Z end).
    rewrite !horizontals_app, !horizontals_flat_map. unfold labels.
    destruct L2 as [A1 A2 A3 A4 A5 A6 A7 A8 A9 A10 A11 A12 A13]. destruct L1 as [_ _ _ _ _ _ _ B8 B9 _ _ _ _].
    assert (Fo : find (fun m => has (dgr (dout x) (Mat m)) p) mats = find (fun m => inb (b p) (a p) names (Mat m)) mats)
      by (apply find_ext; intros m J; apply A5, InM, J).
    assert (Fi : find (fun m => has (dgr (din x) (Mat m)) p) mats = find (fun m => inb (a p) (b p) names (Mat m)) mats)
      by (apply find_ext; intros m J; apply A4, InM, J).
    destruct (Z.eqb z' z) eqn:Ez.
    + f_equal; [|f_equal; [|f_equal]]; apply flat_map_ext_in; intros m J.
      * rewrite hl_hdiel_in, Ez, has_sub, A4, B9, Fo by auto. reflexivity.
      * rewrite hl_hdiel_out, Ez, A5, B8 by auto. rewrite <- !find_none_iff, Fi. reflexivity.
      * rewrite hl_hcond_in, Ez, A4, Fo by auto. reflexivity.
      * rewrite hl_hcond_out, Ez, has_sub, A5, B8, Fi by auto. reflexivity.
    + rewrite !flat_map_none; [reflexivity| | | |]; intros m J.
      * rewrite hl_hcond_out, Ez. reflexivity.
      * rewrite hl_hcond_in, Ez. reflexivity.
      * rewrite hl_hdiel_out, Ez. reflexivity.
      * rewrite hl_hdiel_in, Ez. reflexivity.
  - intros z' zz' e.
    rewrite !verticals_app. unfold verticals. rewrite !flat_map_flat_map. rewrite !flat_map_none; [reflexivity| | | |]; intros m J.
    * apply v_hcond_out.
    * apply v_hcond_in.
    * apply v_emit. reflexivity.
    * apply v_hdiel_in.
Qed.
End Finish.

(** ** the events of one level *)
Section Events.
Context {face : Type} `{EqDec face}.
Context {piece : Type} `{EqDec piece}.
Notation gen := (@gen face piece).
Notation layer := (@layer face).
#[local] Arguments r_or : simpl never.
#[local] Arguments has : simpl never.

Definition same_rest (g g' : gen) : Prop :=
  g_z g' = g_z g /\ state g' = state g /\ current g' = current g /\ surfaces g' = surfaces g /\ errors g' = errors g.
Definition starts (z : Z) (p : face) (l : layer) : bool := let '(r, z0, z1) := l in (z0 <=? z)%Z && (z <? z1)%Z && has r p.
Definition stops (z : Z) (p : face) (l : layer) : bool := let '(r, z0, z1) := l in (z0 <? z)%Z && (z <=? z1)%Z && has r p.

Lemma has_add (d : dict mkey region) k (r : region) k' (p : face) :
  has (dgr (dset d k (r_or (dgr d k) r)) k') p = has (dgr d k') p || (eqb k k' && has r p).
Proof.
  destruct (eq_dec k' k) as [->|N].
  - rewrite dgr_dset_same, has_or, eqb_refl. reflexivity.
  - rewrite dgr_dset_other by exact N. rewrite (proj2 (eqb_false k k')) by congruence. rewrite orb_false_r. reflexivity.
Qed.
Lemma add_events_ok z k ls : forall (g : gen), let g' := add_events z g k ls in
  same_rest g g' /\
  (forall k' p, has (dgr (layers_in g') k') p = has (dgr (layers_in g) k') p || (eqb k k' && existsb (starts z p) ls)) /\
  (forall k' p, has (dgr (layers_out g') k') p = has (dgr (layers_out g) k') p || (eqb k k' && existsb (stops z p) ls)).
Proof.
  induction ls as [|[[r z0] z1] t IH]; intros g; cbn zeta.
  - cbn. split; [repeat split|]. split; intros; rewrite andb_false_r, orb_false_r; reflexivity.
  - unfold add_events. cbn [fold_left]. fold (add_events (face:=face) (piece:=piece) z).
    set (g1 := if _ && _ then add_in g k r else g).
    set (g2 := if _ && _ then add_out g1 k r else g1).
    assert (E1 : same_rest g g1 /\ layers_out g1 = layers_out g /\ forall k' p, has (dgr (layers_in g1) k') p = has (dgr (layers_in g) k') p || (eqb k k' && starts z p (r, z0, z1))).
    { subst g1. destruct ((z0 <=? z)%Z && (z <? z1)%Z) eqn:C; cbn [starts layers_in add_in layers_out]; rewrite ?C.
      - split; [repeat split|]. split; [reflexivity|]. intros k' p. rewrite has_add. reflexivity.
      - split; [repeat split|]. split; [reflexivity|]. intros k' p. unfold starts. rewrite ?C. cbn. rewrite andb_false_r, orb_false_r. reflexivity. }
    assert (E2 : same_rest g1 g2 /\ layers_in g2 = layers_in g1 /\ forall k' p, has (dgr (layers_out g2) k') p = has (dgr (layers_out g1) k') p || (eqb k k' && stops z p (r, z0, z1))).
    { subst g2. destruct ((z0 <? z)%Z && (z <=? z1)%Z) eqn:C; cbn [stops layers_in add_out layers_out]; rewrite ?C.
      - split; [repeat split|]. split; [reflexivity|]. intros k' p. rewrite has_add. reflexivity.
      - split; [repeat split|]. split; [reflexivity|]. intros k' p. unfold stops. rewrite ?C. cbn. rewrite andb_false_r, orb_false_r. reflexivity. }
    destruct E1 as ((R1 & R2 & R3 & R4 & R5) & R6 & R7). destruct E2 as ((Q1 & Q2 & Q3 & Q4 & Q5) & Q6 & Q7).
    specialize (IH g2). cbn zeta in IH. unfold add_events in IH. destruct IH as ((P1 & P2 & P3 & P4 & P5) & P6 & P7).
    split; [unfold same_rest; intuition congruence|]. split; intros k' p.
    + rewrite P6, Q6, R7. cbn [existsb]. destruct (eqb k k'), (starts z p (r, z0, z1)), (has (dgr (layers_in g) k') p); reflexivity.
    + rewrite P7, Q7, R6. cbn [existsb]. destruct (eqb k k'), (stops z p (r, z0, z1)), (has (dgr (layers_out g) k') p); reflexivity.
Qed.
Lemma all_events_ok z (mk : string -> mkey) (d : dict string (list layer)) : forall (g : gen),
  let g' := fold_left (fun g e => add_events z g (mk (fst e)) (snd e)) d g in
  same_rest g g' /\
  (forall k' p, has (dgr (layers_in g') k') p = has (dgr (layers_in g) k') p || existsb (fun e => eqb (mk (fst e)) k' && existsb (starts z p) (snd e)) d) /\
  (forall k' p, has (dgr (layers_out g') k') p = has (dgr (layers_out g) k') p || existsb (fun e => eqb (mk (fst e)) k' && existsb (stops z p) (snd e)) d).
Proof.
  induction d as [|[n ls] t IH]; intros g; cbn zeta.
  - cbn. split; [repeat split|]. split; intros; rewrite orb_false_r; reflexivity.
  - cbn [fold_left fst snd existsb]. destruct (add_events_ok z (mk n) ls g) as ((R1 & R2 & R3 & R4 & R5) & R6 & R7).
    specialize (IH (add_events z g (mk n) ls)). cbn zeta in IH. destruct IH as ((P1 & P2 & P3 & P4 & P5) & P6 & P7).
    split; [unfold same_rest; intuition congruence|]. split; intros k' p.
    + rewrite P6, R6, orb_assoc. reflexivity.
    + rewrite P7, R7, orb_assoc. reflexivity.
Qed.
Lemma existsb_dict (d : dict string (list layer)) (mk : string -> mkey) (T : layer -> bool) n :
  dwf d -> (forall x y, mk x = mk y -> x = y) ->
  existsb (fun e => eqb (mk (fst e)) (mk n) && existsb T (snd e)) d = existsb T (match dget d n with Some l => l | None => [] end).
Proof.
  intros W Inj. apply eq_true_iff_eq. rewrite existsb_exists. split.
  - intros ([n' ls] & J & E). cbn in E. apply andb_true_iff in E. destruct E as [E1 E2]. apply eqb_eq in E1. apply Inj in E1. subst n'.
    rewrite (In_dget n ls W J). exact E2.
  - intros E. destruct (dget d n) as [ls|] eqn:G; [|discriminate]. exists (n, ls). split; [apply dget_In, G|].
    cbn. rewrite eqb_refl. exact E.
Qed.
Lemma existsb_dict_other (d : dict string (list layer)) (mk : string -> mkey) (T : layer -> bool) k :
  (forall x, mk x <> k) -> existsb (fun e => eqb (mk (fst e)) k && existsb T (snd e)) d = false.
Proof.
  intros N. destruct (existsb _ d) eqn:E; [|reflexivity]. apply existsb_exists in E. destruct E as (x & _ & E).
  apply andb_true_iff in E. destruct E as [E _]. apply eqb_eq in E. destruct (N _ E).
Qed.
End Events.

(** ** the run *)
Definition lastz (zs : list Z) : option Z := match rev zs with [] => None | z :: _ => Some z end.
Definition consecutive (zs : list Z) (z zz : Z) : Prop := exists l1 l2, zs = l1 ++ z :: zz :: l2.
Lemma lastz_snoc zs z : lastz (zs ++ [z]) = Some z.
Proof. unfold lastz. rewrite rev_app_distr. reflexivity. Qed.
Lemma lastz_some zs z : lastz zs = Some z -> exists l, zs = l ++ [z].
Proof.
  destruct zs as [|x t] using rev_ind; [discriminate|]. rewrite lastz_snoc. intros [= ->]. eauto.
Qed.
Lemma lastz_none zs : lastz zs = None -> zs = [].
Proof. destruct zs as [|x t] using rev_ind; [reflexivity|]. rewrite lastz_snoc. discriminate. Qed.
Lemma consecutive_snoc zs y z zz : consecutive (zs ++ [y]) z zz <-> consecutive zs z zz \/ (zz = y /\ lastz zs = Some z).
Proof.
  split.
  - intros (l1 & l2 & E). destruct l2 as [|u l2 _] using rev_ind.
    + right. change (l1 ++ z :: [zz]) with (l1 ++ [z] ++ [zz]) in E. rewrite app_assoc in E. apply app_inj_tail in E. destruct E as [-> ->].
      rewrite lastz_snoc. auto.
    + left. exists l1, l2. replace (l1 ++ z :: zz :: l2 ++ [u]) with ((l1 ++ z :: zz :: l2) ++ [u]) in E by (rewrite <- app_assoc; reflexivity).
      apply app_inj_tail in E. tauto.
  - intros [(l1 & l2 & ->)|[-> E]].
    + exists l1, (l2 ++ [y]). rewrite <- app_assoc. reflexivity.
    + apply lastz_some in E. destruct E as [l ->]. exists l, []. rewrite <- app_assoc. reflexivity.
Qed.

Section Run.
Context {face : Type} `{EqDec face}.
Context {piece : Type} `{EqDec piece}.
Variables (left_of right_of : piece -> face) (pieces : list piece).
Hypothesis Npieces : NoDup pieces.
Variables (dbu : Qc) (cs : list (@call face)) (b : @builder face).
Hypothesis De : described dbu cs b.
Hypothesis Two : (2 <= List.length (priority cs))%nat.
Notation gen := (@gen face piece).
#[local] Arguments r_or : simpl never.
#[local] Arguments has : simpl never.

Definition act (prev : option Z) (p : face) (k : mkey) : bool :=
  match prev with None => false | Some z => present_above dbu cs z p k end.
Definition labels_z (z : Z) (p : face) : list hlabel :=
  let a := present_above dbu cs z p in let bl := present_below dbu cs z p in
  labels (nets_of cs) (materials_of cs) (inb a bl (priority cs)) (inb bl a (priority cs))
    (some_in a bl (map Net (nets_of cs))) (some_in bl a (map Net (nets_of cs))).

Record runinv (zs : list Z) (g : gen) : Prop := RI {
  ri_good : good (nets_of cs) (materials_of cs) (act (lastz zs)) g;
  ri_z : g_z g = lastz zs;
  ri_err : errors g = 0%nat;
  ri_h : forall z p, In z zs -> horizontals z p (surfaces g) = labels_z z p;
  ri_h0 : forall z p, ~ In z zs -> horizontals z p (surfaces g) = [];
  ri_v : forall z zz e, consecutive zs z zz -> In e pieces ->
     Permutation (verticals z zz e (surfaces g)) (expected_v (materials_of cs) (owner_above dbu cs z (left_of e)) (owner_above dbu cs z (right_of e)));
  ri_v0 : forall z zz e, ~ consecutive zs z zz -> verticals z zz e (surfaces g) = [] }.

Lemma good_ext nets mats (f h : face -> mkey -> bool) (g : gen) : (forall p k, f p k = h p k) -> good nets mats f g -> good nets mats h g.
Proof.
  intros E [G1 G2 G3 G4]. split; auto.
  - intros k J p. rewrite <- E. auto.
  - intros k J p. rewrite (find_ext (h p) (f p)); auto.
Qed.

Lemma runinv_init : runinv [] (gen0 : gen).
Proof.
  split; cbn; auto; try contradiction.
  - split; cbn; auto.
    + intros k J p. rewrite has_nil. symmetry. apply eqb_false. intros E. apply find_In in E. destruct E; discriminate.
    + split; [constructor|contradiction].
  - intros z zz e (l1 & l2 & E). destruct l1; discriminate.
Qed.

Lemma runinv_step zs z rest g : z_levels b = zs ++ z :: rest -> runinv zs g -> runinv (zs ++ [z]) (level left_of right_of pieces b g z).
Proof.
  intros El [I1 I2 I3 I4 I5 I6 I7].
  destruct (z_levels_ok dbu cs b De) as [Sorted Levels]. destruct De as [D1 D2 D3 [D4 D5] D6].
  rewrite El in Sorted.
  assert (Nz : ~ In z zs). { intros J. pose proof (proj1 (sorted_app zs rest z z Sorted) J). lia. }
  unfold level. rewrite D1, D2.
  (* presence below is presence above the previous level *)
  assert (Prev : forall p k, act (lastz zs) p k = present_below dbu cs z p k).
  { intros p k. unfold act. destruct (lastz zs) as [z0|] eqn:E.
    - apply lastz_some in E. destruct E as [l ->]. symmetry. rewrite <- app_assoc in Sorted. cbn in Sorted.
      assert (L0 : (z0 < z)%Z) by (apply (proj2 (sorted_app l (z :: rest) z0 z Sorted)); left; reflexivity).
      apply present_const; [exact L0|]. intros y Ly [Y1 Y2]. apply Levels in Ly. rewrite El, <- app_assoc in Ly. cbn in Ly.
      apply in_app_or in Ly. destruct Ly as [Ly|[Ly|[Ly|Ly]]]; subst; try lia.
      + pose proof (proj1 (sorted_app l (z :: rest) z0 y Sorted) Ly). lia.
      + replace (l ++ z0 :: z :: rest) with ((l ++ [z0]) ++ z :: rest) in Sorted by (rewrite <- app_assoc; reflexivity).
        pose proof (proj2 (sorted_app (l ++ [z0]) rest z y Sorted) Ly). lia.
    - symmetry. apply lastz_none in E. subst zs. apply present_first. intros y Ly. apply Levels in Ly. rewrite El in Ly.
      destruct Ly as [<-|Ly]; [lia|]. pose proof (proj2 (sorted_app [] rest z y Sorted) Ly). lia. }
  (* next_z *)
  set (g1 := next_z left_of right_of pieces (nets_of cs) (materials_of cs) g z).
  assert (E1 : g_z g1 = Some z /\ layers_in g1 = [] /\ layers_out g1 = [] /\ state g1 = state g /\ current g1 = current g /\ errors g1 = errors g /\
     surfaces g1 = surfaces g ++ match lastz zs with None => [] | Some z0 => wall_surfaces left_of right_of pieces (state g) (nets_of cs) (materials_of cs) z0 z end).
  { subst g1. unfold next_z. rewrite I2. destruct (lastz zs); cbn; repeat split. rewrite app_nil_r. reflexivity. }
  destruct E1 as (N1 & N2 & N3 & N4 & N5 & N6 & N7).
  (* events *)
  destruct (all_events_ok z Net (clayers b) g1) as ((R1 & R2 & R3 & R4 & R5) & R6 & R7).
  set (g2 := fold_left (fun g e => add_events z g (Net (fst e)) (snd e)) (clayers b) g1) in *.
  destruct (all_events_ok z Mat (dlayers b) g2) as ((Q1 & Q2 & Q3 & Q4 & Q5) & Q6 & Q7).
  set (g3 := fold_left (fun g e => add_events z g (Mat (fst e)) (snd e)) (dlayers b) g2) in *.
  assert (Hin : forall k, In k (priority cs) -> forall p, has (dgr (layers_in g3) k) p = present_above dbu cs z p k).
  { intros k _ p. rewrite Q6, R6, N2, present_above_added, <- D3. change (has (dgr [] k) p) with false. cbn [orb].
    destruct k as [n|m]; cbn [layers_of].
    - rewrite (existsb_dict (clayers b) Net (starts z p)), existsb_dict_other, orb_false_r by (auto; congruence). reflexivity.
    - rewrite (existsb_dict (dlayers b) Mat (starts z p)), existsb_dict_other by (auto; congruence). reflexivity. }
  assert (Hout : forall k, In k (priority cs) -> forall p, has (dgr (layers_out g3) k) p = present_below dbu cs z p k).
  { intros k _ p. rewrite Q7, R7, N3, present_below_added, <- D3. change (has (dgr [] k) p) with false. cbn [orb].
    destruct k as [n|m]; cbn [layers_of].
    - rewrite (existsb_dict (clayers b) Net (stops z p)), existsb_dict_other, orb_false_r by (auto; congruence). reflexivity.
    - rewrite (existsb_dict (dlayers b) Mat (stops z p)), existsb_dict_other by (auto; congruence). reflexivity. }
  assert (G3 : good (nets_of cs) (materials_of cs) (present_below dbu cs z) g3).
  { apply (good_ext _ _ _ _ _ Prev). destruct I1 as [A1 A2 A3 A4].
    split; rewrite ?Q2, ?Q3, ?R2, ?R3, ?N4, ?N5; auto. }
  destruct (finish_ok (nets_of cs) (materials_of cs) (priority_NoDup cs) Two g3 _ _ G3 Hin Hout) as (out & F1 & F2 & F3 & F4 & F5 & F6).
  set (g' := finish_z (nets_of cs) (materials_of cs) g3) in *.
  assert (Gz : g_z g3 = Some z) by congruence. rewrite Gz in F5.
  assert (Es : surfaces g' = (surfaces g ++ match lastz zs with None => [] | Some z0 => wall_surfaces left_of right_of pieces (state g) (nets_of cs) (materials_of cs) z0 z end) ++ out) by congruence.
  assert (Wh : forall y p, horizontals y p (match lastz zs with None => [] | Some z0 => wall_surfaces left_of right_of pieces (state g) (nets_of cs) (materials_of cs) z0 z end) = []).
  { intros y p. destruct (lastz zs); [apply walls_horizontal|reflexivity]. }
  split.
  - rewrite lastz_snoc. exact F1.
  - rewrite lastz_snoc. congruence.
  - congruence.
  - intros y p J. rewrite Es, !horizontals_app, Wh, F5, app_nil_r. destruct (Z.eqb y z) eqn:Ey.
    + apply Z.eqb_eq in Ey. subst y. rewrite I5 by exact Nz. reflexivity.
    + apply Z.eqb_neq in Ey. rewrite app_nil_r. apply I4. apply in_app_or in J. destruct J as [J|[J|[]]]; congruence.
  - intros y p J. rewrite Es, !horizontals_app, Wh, F5, app_nil_r. destruct (Z.eqb y z) eqn:Ey.
    + apply Z.eqb_eq in Ey. subst y. destruct J. apply in_or_app. right; left; reflexivity.
    + rewrite app_nil_r. apply I5. intros J2. apply J, in_or_app. auto.
  - intros y yy e C Ie. rewrite Es, !verticals_app, F6, app_nil_r. apply consecutive_snoc in C. destruct C as [C|[-> C]].
    + assert (Dy : yy <> z). { intros ->. apply Nz. destruct C as (l1 & l2 & ->). apply in_or_app. right; right; left; reflexivity. }
      replace (verticals y yy e (match lastz zs with None => [] | Some z0 => wall_surfaces left_of right_of pieces (state g) (nets_of cs) (materials_of cs) z0 z end)) with (@nil vlabel).
      2:{ destruct (lastz zs); [|reflexivity]. symmetry. apply walls_other. right. exact Dy. }
      rewrite app_nil_r. apply I6; assumption.
    + rewrite C. rewrite I7.
      2:{ intros (l1 & l2 & ->). apply Nz. apply in_or_app. right; right; left; reflexivity. }
      cbn [app]. destruct I1 as [A1 A2 A3 A4]. rewrite C in A3. cbn [act] in A3.
      apply (walls_ok left_of right_of pieces Npieces (state g) (nets_of cs) (materials_of cs) (owner_above dbu cs y)).
      * apply firsts_NoDup.
      * apply firsts_NoDup.
      * intros n J p. apply A3. apply in_or_app. left. apply in_map, J.
      * intros n J p. apply A3. apply in_or_app. right. apply in_map, J.
      * intros p n. apply Owner_In_net.
      * intros p n. apply Owner_In.
      * exact Ie.
  - intros y yy e C. rewrite Es, !verticals_app, F6, app_nil_r. rewrite I7 by (intros C'; apply C, consecutive_snoc; auto).
    cbn [app]. destruct (lastz zs) as [z0|] eqn:E; [|reflexivity]. apply walls_other.
    destruct (Z.eq_dec y z0) as [->|]; [|left; assumption]. right. intros ->. apply C, consecutive_snoc. auto.
Qed.

Lemma runinv_run zs2 : forall zs1, z_levels b = zs1 ++ zs2 -> forall g, runinv zs1 g -> forall pre post, zs2 = pre ++ post ->
  runinv (zs1 ++ pre) (fold_left (level left_of right_of pieces b) pre g).
Proof.
  induction zs2 as [|z t IH]; intros zs1 El g R pre post Ep.
  - destruct pre; [|discriminate]. cbn. rewrite app_nil_r. exact R.
  - destruct pre as [|z' pre]; cbn; [rewrite app_nil_r; exact R|]. injection Ep as <- Ep.
    replace (zs1 ++ z :: pre) with ((zs1 ++ [z]) ++ pre) by (rewrite <- app_assoc; reflexivity).
    apply IH with (post := post); [rewrite <- app_assoc; exact El| |exact Ep]. apply runinv_step with (rest := t); assumption.
Qed.
Lemma run_ok pre post : z_levels b = pre ++ post -> runinv pre (run left_of right_of pieces b pre : gen).
Proof. intros E. apply (runinv_run (z_levels b) [] eq_refl gen0 runinv_init pre post E). Qed.
End Run.
