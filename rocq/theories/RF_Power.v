(** Power of a network before and after one elimination. *)
From Coq Require Import ZArith Reals Lra Lia Psatz List.
From Flocq Require Import Core.Core IEEE754.BinarySingleNaN.
From Verif Require Import PyBase FP_Model FP_Spec FP_Proofs FC_Model FC_Spec FC_Proofs FC_Caps RN_Model RN_Spec RN_Inv RN_Ops RN_Elim RN_All RF_Model RF_Spec RF_Proofs RF_Num RF_Mesh.
Import ListNotations.
Local Close Scope Qc_scope.
Local Open Scope R_scope.

(** ** double sums *)
Definition dsum (f : nid -> nid -> R) (l : list nid) : R := rsum (fun a => rsum (f a) l) l.
Definition sq (x : R) : R := x * x.
Lemma sq_pos x : 0 <= sq x. Proof. unfold sq. nra. Qed.
Lemma dsum_le f h l : (forall a b, In a l -> In b l -> f a b <= h a b) -> dsum f l <= dsum h l.
Proof. intros H. apply rsum_le. intros a A. apply rsum_le. intros b B. now apply H. Qed.
Lemma dsum_ext f h l : (forall a b, In a l -> In b l -> f a b = h a b) -> dsum f l = dsum h l.
Proof. intros H. apply rsum_ext. intros a A. apply rsum_ext. intros b B. now apply H. Qed.
Lemma dsum_plus f h l : dsum (fun a b => f a b + h a b) l = dsum f l + dsum h l.
Proof. unfold dsum. rewrite <- rsum_plus. apply rsum_ext. intros a _. apply rsum_plus. Qed.
Lemma dsum_scal c f l : dsum (fun a b => c * f a b) l = c * dsum f l.
Proof. unfold dsum. rewrite <- rsum_scal. apply rsum_ext. intros a _. apply rsum_scal. Qed.
Lemma dsum_const c l : dsum (fun _ _ => c) l = sq (INR (List.length l)) * c.
Proof. unfold dsum, sq. rewrite rsum_const, rsum_const. ring. Qed.
Lemma dsum_nonneg f l : (forall a b, In a l -> In b l -> 0 <= f a b) -> 0 <= dsum f l.
Proof. intros H. apply rsum_nonneg. intros a A. apply rsum_nonneg. intros b B. now apply H. Qed.
Lemma dsum_split f l i : NoDup l -> In i l -> (forall a b, f a b = f b a) -> f i i = 0 -> dsum f l = dsum f (remove Nat.eq_dec i l) + 2 * rsum (f i) (remove Nat.eq_dec i l).
Proof.
  intros N I Sy Z. unfold dsum. rewrite (rsum_remove _ l i N I), (rsum_remove (f i) l i N I), Z. set (l' := remove Nat.eq_dec i l).
  rewrite (rsum_ext (fun a => rsum (f a) l) (fun a => f i a + rsum (f a) l')) by (intros a _; rewrite (rsum_remove (f a) l i N I), (Sy a i); reflexivity).
  rewrite rsum_plus. ring.
Qed.

(** ** a star and the mesh that replaces it *)
Section Star.
Variables (c v : nid -> R) (l : list nid).
Let S := rsum c l.
Let A := rsum (fun x => c x * sq (v x)) l.
Let B := rsum (fun x => c x * v x) l.
Lemma star_expand t : rsum (fun x => c x * sq (v x - t)) l = A - 2 * t * B + t * t * S.
Proof.
  rewrite (rsum_ext _ (fun x => (c x * sq (v x) + (- (2 * t)) * (c x * v x)) + (t * t) * c x)) by (intros; unfold sq; ring).
  rewrite !rsum_plus, !rsum_scal. fold S A B. ring.
Qed.
Lemma mesh_expand : dsum (fun x y => c x * c y * sq (v x - v y)) l = 2 * (A * S - B * B).
Proof.
  unfold dsum. rewrite (rsum_ext _ (fun x => (S * (c x * sq (v x)) + (- (2 * B)) * (c x * v x)) + A * c x)).
  - rewrite !rsum_plus, !rsum_scal. fold S A B. ring.
  - intros x _. rewrite (rsum_ext _ (fun y => (c x * sq (v x) * c y + (- (2 * (c x * v x))) * (c y * v y)) + c x * (c y * sq (v y)))) by (intros; unfold sq; ring).
    rewrite !rsum_plus, !rsum_scal. fold S A B. ring.
Qed.
Lemma star_mesh t : S <> 0 -> rsum (fun x => c x * sq (v x - t)) l = / 2 * dsum (fun x y => c x * c y / S * sq (v x - v y)) l + S * sq (B / S - t).
Proof.
  intros N. rewrite star_expand, (dsum_ext _ (fun x y => / S * (c x * c y * sq (v x - v y)))) by (intros; unfold Rdiv; ring). rewrite dsum_scal, mesh_expand. unfold sq. field. exact N.
Qed.
Lemma mean_between lo hi : 0 < S -> (forall x, In x l -> 0 <= c x) -> (forall x, In x l -> lo <= v x <= hi) -> lo <= B / S <= hi.
Proof.
  intros P C H. assert (L1 : lo * S <= B) by (unfold S, B; rewrite <- rsum_scal; apply rsum_le; intros x X; specialize (C x X); specialize (H x X); nra).
  assert (L2 : B <= hi * S) by (unfold S, B; rewrite <- rsum_scal; apply rsum_le; intros x X; specialize (C x X); specialize (H x X); nra).
  split; apply Rmult_le_reg_r with S; try exact P; unfold Rdiv; rewrite Rmult_assoc, Rinv_l, Rmult_1_r by lra; assumption.
Qed.
Lemma mesh_total : 0 < S -> dsum (fun x y => c x * c y / S) l = S.
Proof.
  intros P. rewrite (dsum_ext _ (fun x y => / S * (c x * c y))) by (intros; unfold Rdiv; ring). rewrite dsum_scal. unfold dsum.
  rewrite (rsum_ext _ (fun x => S * c x)) by (intros x _; rewrite rsum_scal; fold S; ring). rewrite rsum_scal. fold S. field. lra.
Qed.
End Star.

(** ** the power in terms of one node *)
Definition rest (n : fnet) (i : nid) : list nid := remove Nat.eq_dec i (f_nodes n).
Lemma power_dsum n v : power n v = / 2 * dsum (fun a b => g n a b * sq (v a - v b)) (f_nodes n). Proof. reflexivity. Qed.
Lemma all_cond_dsum n : all_cond n = / 2 * dsum (g n) (f_nodes n). Proof. reflexivity. Qed.
Lemma g_sym n a b : SInv n -> g n a b = g n b a. Proof. intros I. unfold g. now rewrite (f_cond_sym n a b I). Qed.
Lemma g_irr n a : SInv n -> g n a a = 0. Proof. intros I. unfold g. now rewrite (f_cond_irr n a I), val_0. Qed.
Lemma nodes_nodup n : SInv n -> NoDup (f_nodes n). Proof. intros I. exact (NoDup_node_list (si_inv _ I)). Qed.
Lemma power_split n i v : SInv n -> In i (f_nodes n) -> power n v = / 2 * dsum (fun a b => g n a b * sq (v a - v b)) (rest n i) + rsum (fun x => g n i x * sq (v x - v i)) (rest n i).
Proof.
  intros I J. rewrite power_dsum, (dsum_split _ (f_nodes n) i (nodes_nodup n I) J).
  - fold (rest n i). rewrite (rsum_ext (fun b => g n i b * sq (v i - v b)) (fun x => g n i x * sq (v x - v i))) by (intros; unfold sq; ring). field.
  - intros a b. rewrite (g_sym n a b I). unfold sq. ring.
  - rewrite (g_irr n i I). ring.
Qed.
Lemma all_cond_split n i : SInv n -> In i (f_nodes n) -> all_cond n = / 2 * dsum (g n) (rest n i) + rsum (g n i) (rest n i).
Proof.
  intros I J. rewrite all_cond_dsum. assert (X := dsum_split (g n) (f_nodes n) i (nodes_nodup n I) J (fun a b => g_sym n a b I) (g_irr n i I)). fold (rest n i) in X. rewrite X. field.
Qed.
Lemma star_cond_rest n i : SInv n -> In i (f_nodes n) -> star_cond n i = rsum (g n i) (rest n i).
Proof. intros I J. unfold star_cond. rewrite (rsum_remove (g n i) _ i (nodes_nodup n I) J), (g_irr n i I). unfold rest. ring. Qed.
Lemma g_nonneg n a b : all_fine n -> 0 <= g n a b. Proof. intros A. exact (proj2 (A a b)). Qed.
Lemma all_cond_nonneg n : all_fine n -> 0 <= all_cond n.
Proof. intros A. rewrite all_cond_dsum. assert (0 <= dsum (g n) (f_nodes n)) by (apply dsum_nonneg; intros; now apply g_nonneg). lra. Qed.
Lemma g_outside n a b : SInv n -> ~ (In a (f_nodes n) /\ In b (f_nodes n)) -> g n a b = 0.
Proof. intros I N. unfold g, f_cond. destruct (dget (s (tables n)) (a, b)) as [r|] eqn:E; [|apply val_0]. exfalso. apply N. exact (s_loc _ _ (si_inv _ I) E). Qed.
Lemma g_all n a b : SInv n -> all_fine n -> g n a b <= 2 * all_cond n.
Proof.
  intros I A. destruct (in_dec Nat.eq_dec a (f_nodes n)) as [X|X]; [destruct (in_dec Nat.eq_dec b (f_nodes n)) as [Y|Y]|].
  - rewrite all_cond_dsum. replace (2 * (/ 2 * dsum (g n) (f_nodes n))) with (dsum (g n) (f_nodes n)) by field. unfold dsum.
    eapply Rle_trans; [apply (rsum_in (g n a) (f_nodes n) b); [intros; now apply g_nonneg|exact Y]|].
    apply (rsum_in (fun a => rsum (g n a) (f_nodes n)) (f_nodes n) a); [intros; apply rsum_nonneg; intros; now apply g_nonneg|exact X].
  - rewrite g_outside by tauto. assert (Z := all_cond_nonneg n A). lra.
  - rewrite g_outside by tauto. assert (Z := all_cond_nonneg n A). lra.
Qed.
Lemma star_all n i : SInv n -> all_fine n -> In i (f_nodes n) -> star_cond n i <= all_cond n.
Proof.
  intros I A J. rewrite (star_cond_rest n i I J), (all_cond_split n i I J). assert (0 <= dsum (g n) (rest n i)) by (apply dsum_nonneg; intros; now apply g_nonneg). lra.
Qed.

(** ** one step *)
Definition spread (n : fnet) : R := sq (INR (List.length (f_nodes n))) * tiny_g.
Lemma rest_length n i : (List.length (rest n i) <= List.length (f_nodes n))%nat.
Proof. unfold rest. induction (f_nodes n) as [|a l IH]; cbn; [lia|]. destruct (Nat.eq_dec i a); cbn; lia. Qed.
Lemma sq_INR a b : (a <= b)%nat -> sq (INR a) <= sq (INR b).
Proof. intros H. apply le_INR in H. assert (0 <= INR a) by apply pos_INR. unfold sq. nra. Qed.
Definition vput (v : nid -> R) (i : nid) (t : R) : nid -> R := fun x => if Nat.eq_dec x i then t else v x.
Lemma diff_sq lo hi a b : lo <= a <= hi -> lo <= b <= hi -> sq (a - b) <= sq (hi - lo).
Proof. intros. unfold sq. nra. Qed.

Section Step.
Variables (n n' : fnet) (i : nid).
Hypothesis I : SInv n.
Hypothesis I' : SInv n'.
Hypothesis A : all_fine n.
Hypothesis A' : all_fine n'.
Hypothesis J : In i (f_nodes n).
Hypothesis Nd : f_nodes n' = rest n i.
Let W : R := w ^ (List.length (f_nodes n) + 3).
Let e : R := spread n.
Lemma W_ge1 : 1 <= W. Proof. apply w_pos. Qed.
Lemma e_pos : 0 <= e. Proof. destruct tiny_small as [_ T]. apply Rmult_le_pos; [apply sq_pos|lra]. Qed.
Lemma rest_in x : In x (rest n i) -> In x (f_nodes n) /\ x <> i. Proof. apply in_remove. Qed.
Let c := g n i.
Lemma c_nonneg x : 0 <= c x. Proof. now apply g_nonneg. Qed.

Lemma mesh_bound lo hi v : (forall x, In x (rest n i) -> lo <= v x <= hi) -> dsum (fun _ _ => 2 * tiny_g * sq (hi - lo)) (rest n i) <= 2 * (e * sq (hi - lo)).
Proof.
  intros _. rewrite dsum_const. destruct tiny_small as [_ T]. assert (X := sq_INR _ _ (rest_length n i)). assert (P := sq_pos (hi - lo)).
  assert (0 <= tiny_g * sq (hi - lo)) by (apply Rmult_le_pos; lra). unfold e, spread.
  replace (2 * (sq (INR (List.length (f_nodes n))) * tiny_g * sq (hi - lo))) with (sq (INR (List.length (f_nodes n))) * (2 * (tiny_g * sq (hi - lo)))) by ring.
  replace (2 * tiny_g * sq (hi - lo)) with (2 * (tiny_g * sq (hi - lo))) by ring. apply Rmult_le_compat_r; lra.
Qed.
Lemma meshed_power v t : 0 < star_cond n i -> power n (vput v i t) =
  / 2 * dsum (fun a b => (g n a b + c a * c b / star_cond n i) * sq (v a - v b)) (rest n i) + star_cond n i * sq (rsum (fun x => c x * v x) (rest n i) / star_cond n i - t).
Proof.
  intros P. rewrite (power_split n i _ I J).
  rewrite (dsum_ext _ (fun a b => g n a b * sq (v a - v b))).
  2:{ intros a b X Y. apply rest_in in X. apply rest_in in Y. unfold vput. destruct (Nat.eq_dec a i), (Nat.eq_dec b i); tauto. }
  rewrite (rsum_ext _ (fun x => c x * sq (v x - t))).
  2:{ intros x X. apply rest_in in X. unfold vput. destruct (Nat.eq_dec x i), (Nat.eq_dec i i); tauto. }
  assert (Q := star_cond_rest n i I J). fold c in Q. rewrite Q in P |- *. rewrite star_mesh by lra.
  rewrite (dsum_ext (fun a b => (g n a b + c a * c b / rsum c (rest n i)) * sq (v a - v b)) (fun a b => g n a b * sq (v a - v b) + c a * c b / rsum c (rest n i) * sq (v a - v b))) by (intros; ring).
  rewrite dsum_plus. ring.
Qed.
Lemma vput_same v x : vput v i (v i) x = v x. Proof. unfold vput. destruct (Nat.eq_dec x i) as [-> |]; reflexivity. Qed.
Lemma power_ext m v v' : (forall x, In x (f_nodes m) -> v x = v' x) -> power m v = power m v'.
Proof. intros H. rewrite !power_dsum. f_equal. apply dsum_ext. intros a b X Y. now rewrite (H a X), (H b Y). Qed.

Lemma step_less v lo hi : between n v lo hi -> meshed n i n' \/ dropped n i n' -> power n' v <= W * power n v + e * sq (hi - lo).
Proof.
  intros Bt D. assert (WP := W_ge1). assert (EP := e_pos). assert (PP := sq_pos (hi - lo)). assert (ED : 0 <= e * sq (hi - lo)) by (now apply Rmult_le_pos).
  assert (Btr : forall x, In x (rest n i) -> lo <= v x <= hi) by (intros x X; apply Bt; now apply rest_in in X).
  destruct D as [[P D]|[_ D]].
  - rewrite power_dsum, Nd.
    rewrite <- (power_ext n (vput v i (v i)) v) by (intros; apply vput_same). rewrite meshed_power by exact P.
    set (F := fun a b => (g n a b + c a * c b / star_cond n i) * sq (v a - v b)).
    apply Rle_trans with (/ 2 * (W * dsum F (rest n i) + 2 * (e * sq (hi - lo)))).
    + apply Rmult_le_compat_l; [lra|]. eapply Rle_trans; [|apply Rplus_le_compat_l; apply (mesh_bound lo hi v Btr)]. rewrite <- dsum_scal, <- dsum_plus.
      apply dsum_le. intros a b X Y. unfold F. destruct (Nat.eq_dec a b) as [-> | Ne].
      * replace (sq (v b - v b)) with 0 by (unfold sq; ring). destruct tiny_small as [_ T]. assert (0 <= 2 * tiny_g * sq (hi - lo)) by (apply Rmult_le_pos; lra). lra.
      * assert (Z := diff_sq lo hi (v a) (v b) (Btr a X) (Btr b Y)). assert (Z0 := sq_pos (v a - v b)). apply rest_in in X. apply rest_in in Y.
        destruct (D a b (proj2 X) (proj2 Y) Ne) as [_ U]. fold W in U. destruct tiny_small as [_ T].
        apply Rle_trans with (((g n a b + c a * c b / star_cond n i) * W + 2 * tiny_g) * sq (v a - v b)); [now apply Rmult_le_compat_r|].
        assert (2 * tiny_g * sq (v a - v b) <= 2 * tiny_g * sq (hi - lo)) by (apply Rmult_le_compat_l; lra). lra.
    + assert (0 <= star_cond n i * sq (rsum (fun x => c x * v x) (rest n i) / star_cond n i - v i)) by (apply Rmult_le_pos; [lra|apply sq_pos]).
      assert (0 <= W * (star_cond n i * sq (rsum (fun x => c x * v x) (rest n i) / star_cond n i - v i))) by (apply Rmult_le_pos; lra). lra.
  - rewrite power_dsum, Nd, (power_split n i v I J).
    rewrite (dsum_ext _ (fun a b => g n a b * sq (v a - v b))) by (intros a b X Y; apply rest_in in X; apply rest_in in Y; now rewrite D by tauto).
    set (Z := dsum _ _). assert (0 <= Z) by (apply dsum_nonneg; intros; apply Rmult_le_pos; [now apply g_nonneg|apply sq_pos]).
    set (Y := rsum _ _). assert (0 <= Y) by (apply rsum_nonneg; intros; apply Rmult_le_pos; [now apply g_nonneg|apply sq_pos]).
    assert (1 * (/ 2 * Z + Y) <= W * (/ 2 * Z + Y)) by (apply Rmult_le_compat_r; lra). lra.
Qed.

Lemma step_more v lo hi : lo <= hi -> between n' v lo hi -> meshed n i n' \/ dropped n i n' ->
  exists t, lo <= t <= hi /\ power n (vput v i t) <= W * power n' v + (tiny_star + W * e) * sq (hi - lo).
Proof.
  intros LH Bt D. assert (WP := W_ge1). assert (EP := e_pos). assert (PP := sq_pos (hi - lo)). assert (ED : 0 <= W * e * sq (hi - lo)) by (apply Rmult_le_pos; [apply Rmult_le_pos; lra|exact PP]).
  assert (TS : 0 <= tiny_star * sq (hi - lo)) by (apply Rmult_le_pos; [unfold tiny_star; lra|exact PP]).
  assert (Btr : forall x, In x (rest n i) -> lo <= v x <= hi) by (intros x X; apply Bt; now rewrite Nd).
  destruct D as [[P D]|[P D]].
  - exists (rsum (fun x => c x * v x) (rest n i) / star_cond n i). split.
    + assert (Q := star_cond_rest n i I J). fold c in Q. rewrite Q in P |- *. apply mean_between; [exact P|intros; apply c_nonneg|exact Btr].
    + rewrite meshed_power by exact P. rewrite Rminus_diag_eq by reflexivity. replace (sq 0) with 0 by (unfold sq; ring). rewrite Rmult_0_r, Rplus_0_r.
      rewrite power_dsum, Nd. set (F := fun a b => g n' a b * sq (v a - v b)).
      apply Rle_trans with (/ 2 * (W * (dsum F (rest n i) + 2 * (e * sq (hi - lo))))); [|lra].
      apply Rmult_le_compat_l; [lra|]. eapply Rle_trans; [|apply Rmult_le_compat_l; [lra|apply Rplus_le_compat_l; apply (mesh_bound lo hi v Btr)]]. rewrite <- dsum_plus, <- dsum_scal.
      apply dsum_le. intros a b X Y. unfold F. destruct tiny_small as [_ T]. assert (TD : 0 <= 2 * tiny_g * sq (hi - lo)) by (apply Rmult_le_pos; lra). destruct (Nat.eq_dec a b) as [-> | Ne].
      * replace (sq (v b - v b)) with 0 by (unfold sq; ring). rewrite !Rmult_0_r, Rplus_0_l. apply Rmult_le_pos; lra.
      * assert (Z := diff_sq lo hi (v a) (v b) (Btr a X) (Btr b Y)). assert (Z0 := sq_pos (v a - v b)). apply rest_in in X. apply rest_in in Y.
        destruct (D a b (proj2 X) (proj2 Y) Ne) as [U _]. fold W in U. fold c in U.
        assert (U2 : g n a b + c a * c b / star_cond n i <= W * (g n' a b + 2 * tiny_g)).
        { set (r := g n a b + c a * c b / star_cond n i) in *. replace r with (W * (r / W)) by (field; lra). apply Rmult_le_compat_l; lra. }
        apply Rle_trans with (W * (g n' a b + 2 * tiny_g) * sq (v a - v b)); [now apply Rmult_le_compat_r|]. rewrite Rmult_assoc. apply Rmult_le_compat_l; [lra|].
        assert (2 * tiny_g * sq (v a - v b) <= 2 * tiny_g * sq (hi - lo)) by (apply Rmult_le_compat_l; lra). lra.
  - exists lo. split; [lra|]. rewrite (power_split n i _ I J), power_dsum, Nd.
    rewrite (dsum_ext _ (fun a b => g n' a b * sq (v a - v b))).
    2:{ intros a b X Y. apply rest_in in X. apply rest_in in Y. rewrite D by tauto. unfold vput. destruct (Nat.eq_dec a i), (Nat.eq_dec b i); tauto. }
    set (Z := dsum _ _). assert (0 <= Z) by (apply dsum_nonneg; intros; apply Rmult_le_pos; [now apply g_nonneg|apply sq_pos]).
    assert (Y : rsum (fun x => g n i x * sq (vput v i lo x - vput v i lo i)) (rest n i) <= tiny_star * sq (hi - lo)).
    { apply Rle_trans with (rsum (fun x => sq (hi - lo) * g n i x) (rest n i)).
      - apply rsum_le. intros x X. assert (B := Btr x X). apply rest_in in X. unfold vput. destruct (Nat.eq_dec x i); [tauto|]. destruct (Nat.eq_dec i i); [|tauto].
        rewrite Rmult_comm. apply Rmult_le_compat_r; [now apply g_nonneg|]. apply diff_sq; lra.
      - rewrite rsum_scal, <- (star_cond_rest n i I J), Rmult_comm. now apply Rmult_le_compat_r. }
    assert (1 * (/ 2 * Z) <= W * (/ 2 * Z)) by (apply Rmult_le_compat_r; lra). lra.
Qed.

Lemma step_total : meshed n i n' \/ dropped n i n' -> all_cond n' <= W * all_cond n + e.
Proof.
  intros D. assert (WP := W_ge1). assert (EP := e_pos). rewrite all_cond_dsum, Nd, (all_cond_split n i I J). fold c.
  set (G := dsum (g n) (rest n i)). assert (GP : 0 <= G) by (apply dsum_nonneg; intros; now apply g_nonneg).
  set (Sg := rsum c (rest n i)). assert (SP : 0 <= Sg) by (apply rsum_nonneg; intros; apply c_nonneg).
  destruct D as [[P D]|[_ D]].
  - assert (Q := star_cond_rest n i I J). fold c in Q. fold Sg in Q. rewrite Q in P, D.
    apply Rle_trans with (/ 2 * (W * (G + Sg) + 2 * (e * sq (1 - 0)))).
    + apply Rmult_le_compat_l; [lra|]. eapply Rle_trans; [|apply Rplus_le_compat_l; apply (mesh_bound 0 1 (fun _ => 0)); intros; lra].
      assert (MT := mesh_total c (rest n i) P). fold Sg in MT. replace (G + Sg) with (G + dsum (fun x y => c x * c y / Sg) (rest n i)) by (now rewrite MT). unfold G. rewrite <- dsum_plus, <- dsum_scal, <- dsum_plus. apply dsum_le. intros a b X Y. destruct tiny_small as [_ T]. replace (sq (1 - 0)) with 1 by (unfold sq; ring). rewrite Rmult_1_r.
      assert (N0 : 0 <= g n a b + c a * c b / Sg). { apply Rplus_le_le_0_compat; [now apply g_nonneg|]. apply Rmult_le_pos; [apply Rmult_le_pos; apply c_nonneg|]. left. now apply Rinv_0_lt_compat. }
      destruct (Nat.eq_dec a b) as [-> | Ne].
      * rewrite (g_irr n' b I'). assert (0 <= W * (g n b b + c b * c b / Sg)) by (apply Rmult_le_pos; lra). lra.
      * apply rest_in in X. apply rest_in in Y. destruct (D a b (proj2 X) (proj2 Y) Ne) as [_ U]. fold W in U. fold c in U. lra.
    + replace (sq (1 - 0)) with 1 by (unfold sq; ring). assert (0 <= W * Sg) by (apply Rmult_le_pos; lra). lra.
  - rewrite (dsum_ext (g n') (g n)) by (intros a b X Y; apply rest_in in X; apply rest_in in Y; now apply D). fold G.
    assert (1 * (/ 2 * G + Sg) <= W * (/ 2 * G + Sg)) by (apply Rmult_le_compat_r; lra). lra.
Qed.
End Step.
