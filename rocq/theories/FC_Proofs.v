(** Rounding errors of capacitances. *)
From Coq Require Import ZArith Reals Lra Lia Psatz List Bool.
From Flocq Require Import Core.Core Relative Plus_error IEEE754.BinarySingleNaN.
From Verif Require Import FP_Model FP_Spec FP_Proofs FC_Model FC_Spec.
Import ListNotations.
Local Open Scope R_scope.

(** ** powers of ten, and results that are neither too large nor too small *)
Lemma ten_pos a : 0 < 10 ^ a. Proof. apply pow_lt. lra. Qed.
Lemma ten_ge1 a : 1 <= 10 ^ a. Proof. apply pow_R1_Rle. lra. Qed.
Lemma ten_le a b : (a <= b)%nat -> 10 ^ a <= 10 ^ b. Proof. intros H. apply Rle_pow; [lra|exact H]. Qed.
Lemma ten_inv_le a b : (a <= b)%nat -> / 10 ^ b <= / 10 ^ a. Proof. intros H. apply Rinv_le; [apply ten_pos|now apply ten_le]. Qed.
Lemma ten_IZR a : 10 ^ a = IZR (10 ^ Z.of_nat a). Proof. apply pow_IZR. Qed.
Definition eta : R := / 10 ^ 300.
Lemma eta_pos : 0 < eta. Proof. apply Rinv_0_lt_compat, ten_pos. Qed.
Lemma bpow_eta : / 2 * bpow radix2 (-1074) <= eta.
Proof.
  unfold eta. apply Rle_trans with (bpow radix2 (-1000)).
  - apply Rle_trans with (bpow radix2 (-1074)); [assert (0 <= bpow radix2 (-1074)) by apply bpow_ge_0; lra|apply bpow_le; lia].
  - change (-1000)%Z with (- (1000))%Z. rewrite bpow_opp. apply Rinv_le; [apply ten_pos|]. rewrite ten_IZR, <- IZR_Zpower by lia. apply IZR_le. vm_compute. discriminate.
Qed.
Lemma fl_e x : Rabs (fl x - x) <= u * Rabs x + eta.
Proof.
  destruct (relative_error_N_FLT'_ex radix2 (-1074) 53 eq_refl (fun n => negb (Z.even n)) x) as (eps & et & A & B & _ & C).
  assert (E : fl x = x * (1 + eps) + et) by exact C. rewrite E.
  replace (x * (1 + eps) + et - x) with (eps * x + et) by ring.
  eapply Rle_trans; [apply Rabs_triang|]. rewrite Rabs_mult. apply Rplus_le_compat; [|eapply Rle_trans; [exact B|apply bpow_eta]].
  apply Rmult_le_compat_r; [apply Rabs_pos|]. eapply Rle_trans; [exact A|].
  unfold u_ro. change (bpow radix2 (- (53) + 1)) with (/ 4503599627370496). unfold u. lra.
Qed.
(** results of addition have no error from underflow *)
Lemma fl_plus (x y : float) : Rabs (fl (val x + val y) - (val x + val y)) <= u * Rabs (val x + val y).
Proof.
  destruct (FLT_plus_error_N_ex radix2 (-1074) 53 (fun n => negb (Z.even n)) (val x) (val y)
    (generic_format_B2R prec emax x) (generic_format_B2R prec emax y)) as (eps & A & B).
  assert (E : fl (val x + val y) = (val x + val y) * (1 + eps)) by exact B. rewrite E.
  replace ((val x + val y) * (1 + eps) - (val x + val y)) with (eps * (val x + val y)) by ring. rewrite Rabs_mult.
  apply Rmult_le_compat_r; [apply Rabs_pos|]. eapply Rle_trans; [exact A|].
  unfold u_ro. change (bpow radix2 (- (53) + 1)) with (/ 4503599627370496). unfold u. lra.
Qed.
Lemma fl_fits x : Rabs x <= 10 ^ 200 -> Rabs (fl x) < bpow radix2 emax.
Proof.
  intros H. assert (E := fl_e x). assert (T : Rabs (fl x) <= Rabs x + Rabs (fl x - x)).
  { replace (fl x) with (x + (fl x - x)) at 1 by ring. apply Rabs_triang. }
  assert (X : eta <= 1). { unfold eta. rewrite <- Rinv_1. apply Rinv_le; [lra|apply ten_ge1]. }
  assert (Y := ten_ge1 200).
  apply Rle_lt_trans with (bpow radix2 700); [|apply bpow_lt; reflexivity].
  apply Rle_trans with (3 * 10 ^ 200); [unfold u in E; lra|].
  rewrite ten_IZR, <- mult_IZR, <- IZR_Zpower by lia. apply IZR_le. vm_compute. discriminate.
Qed.
Lemma add_fits a b : is_finite a = true -> is_finite b = true -> Rabs (val a + val b) <= 10 ^ 200 ->
  is_finite (fadd a b) = true /\ val (fadd a b) = fl (val a + val b).
Proof.
  intros A B H. assert (C := Bplus_correct prec emax Hprec Hmax mode_NE a b A B).
  change (round radix2 fexp (round_mode mode_NE) (val a + val b)) with (fl (val a + val b)) in C.
  rewrite Rlt_bool_true in C by (apply fl_fits; exact H). destruct C as (C & D & _). now split.
Qed.
Lemma sub_fits a b : is_finite a = true -> is_finite b = true -> Rabs (val a - val b) <= 10 ^ 200 ->
  is_finite (fsub a b) = true /\ val (fsub a b) = fl (val a - val b).
Proof.
  intros A B H. assert (C := Bminus_correct prec emax Hprec Hmax mode_NE a b A B).
  change (round radix2 fexp (round_mode mode_NE) (val a - val b)) with (fl (val a - val b)) in C.
  rewrite Rlt_bool_true in C by (apply fl_fits; exact H). destruct C as (C & D & _). now split.
Qed.
Lemma mul_fits a b : is_finite a = true -> is_finite b = true -> Rabs (val a * val b) <= 10 ^ 200 ->
  is_finite (fmul a b) = true /\ val (fmul a b) = fl (val a * val b).
Proof.
  intros A B H. assert (C := Bmult_correct prec emax Hprec Hmax mode_NE a b).
  change (round radix2 fexp (round_mode mode_NE) (val a * val b)) with (fl (val a * val b)) in C.
  rewrite Rlt_bool_true in C by (apply fl_fits; exact H). destruct C as (C & D & _). rewrite A, B in D. now split.
Qed.
Lemma div_fits a b : is_finite a = true -> val b <> 0 -> Rabs (val a / val b) <= 10 ^ 200 ->
  is_finite (fdiv a b) = true /\ val (fdiv a b) = fl (val a / val b).
Proof.
  intros A B H. assert (C := Bdiv_correct prec emax Hprec Hmax mode_NE a b B).
  change (round radix2 fexp (round_mode mode_NE) (val a / val b)) with (fl (val a / val b)) in C.
  rewrite Rlt_bool_true in C by (apply fl_fits; exact H). destruct C as (C & D & _). rewrite A in D. now split.
Qed.
Lemma fl_0 : fl 0 = 0. Proof. unfold fl. now rewrite round_0 by auto with typeclass_instances. Qed.
Lemma sub_plus (x y : float) : Rabs (fl (val x - val y) - (val x - val y)) <= u * Rabs (val x - val y).
Proof. assert (H := fl_plus x (Bopp y)). rewrite B2R_Bopp in H. exact H. Qed.

(** ** relative errors: a factor of at most w ^ k *)
Definition w : R := 1 + 2 * u.
Lemma w_ge1 : 1 <= w. Proof. unfold w, u. lra. Qed.
Lemma w_pos k : 1 <= w ^ k. Proof. apply pow_R1_Rle, w_ge1. Qed.
Lemma w_le j k : (j <= k)%nat -> w ^ j <= w ^ k. Proof. intros H. apply Rle_pow; [apply w_ge1|exact H]. Qed.
Lemma w_bound k : 2 * INR k * u < 1 -> w ^ k * (1 - 2 * INR k * u) <= 1.
Proof.
  assert (UP := u_pos). induction k as [|k IH]; intros H; [simpl; lra|]. rewrite S_INR in *. assert (0 <= INR k) by apply pos_INR.
  assert (X : 2 * INR k * u < 1) by nra. specialize (IH X). simpl. assert (1 <= w ^ k) by apply w_pos.
  apply Rle_trans with (w ^ k * (1 - 2 * INR k * u)); [|exact IH]. rewrite (Rmult_comm w), Rmult_assoc.
  apply Rmult_le_compat_l; [lra|]. unfold w. assert (0 <= INR k * u) by (apply Rmult_le_pos; lra). nra.
Qed.
Lemma w_small k : (k <= 1000)%nat -> 1 <= w ^ k <= 1 + 3 * INR k * u.
Proof.
  intros H. split; [apply w_pos|]. assert (K : INR k <= 1000). { replace 1000 with (INR 1000) by (rewrite INR_IZR_INZ; reflexivity). now apply le_INR. }
  assert (P : 0 <= INR k) by apply pos_INR. assert (UP := u_pos).
  assert (L : 0 <= INR k * u <= / 1000000). { split; [apply Rmult_le_pos; lra|]. apply Rle_trans with (1000 * u); [apply Rmult_le_compat_r; lra|unfold u; lra]. }
  assert (B := w_bound k ltac:(nra)). set (y := INR k * u) in *. replace (2 * INR k * u) with (2 * y) in B by (unfold y; ring).
  replace (3 * INR k * u) with (3 * y) by (unfold y; ring). assert (1 <= w ^ k) by apply w_pos.
  destruct (Rle_or_lt (w ^ k) (1 + 3 * y)) as [E|E]; [exact E|]. exfalso. nra.
Qed.
Definition rel (k : nat) (x r : R) : Prop := r / w ^ k <= x <= r * w ^ k.
Definition rng (a : nat) (r : R) : Prop := r = 0 \/ / 10 ^ a <= r <= 10 ^ a.
Definition near (k : nat) (a : nat) (x : float) (r : R) : Prop := is_finite x = true /\ rel k (val x) r /\ rng a r.
Lemma rng_nonneg a r : rng a r -> 0 <= r.
Proof. intros [->|[H _]]; [lra|]. assert (0 < / 10 ^ a) by apply Rinv_0_lt_compat, ten_pos. lra. Qed.
Lemma rng_le a b r : (a <= b)%nat -> rng a r -> rng b r.
Proof. intros L [->|[A B]]; [now left|right]. split; [eapply Rle_trans; [apply ten_inv_le; exact L|exact A]|eapply Rle_trans; [exact B|now apply ten_le]]. Qed.
Lemma rng_mul a b r s : rng a r -> rng b s -> rng (a + b) (r * s).
Proof.
  intros [->|[A B]] H; [left; ring|]. destruct H as [->|[C D]]; [left; ring|right]. rewrite pow_add, Rinv_mult.
  assert (0 < / 10 ^ a) by apply Rinv_0_lt_compat, ten_pos. assert (0 < / 10 ^ b) by apply Rinv_0_lt_compat, ten_pos.
  split; apply Rmult_le_compat; lra.
Qed.
Lemma rng_inv a r : r <> 0 -> rng a r -> rng a (/ r).
Proof.
  intros N [->|[A B]]; [now elim N|right]. assert (0 < / 10 ^ a) by apply Rinv_0_lt_compat, ten_pos.
  split; [apply Rinv_le; lra|]. rewrite <- (Rinv_inv (10 ^ a)). apply Rinv_le; lra.
Qed.
Lemma rng_div a b r s : s <> 0 -> rng a r -> rng b s -> rng (a + b) (r / s).
Proof. intros N A B. apply rng_mul; [exact A|now apply rng_inv]. Qed.
Lemma rng_add a r s : rng a r -> rng a s -> rng (S a) (r + s).
Proof.
  intros A B. assert (NA := rng_nonneg _ _ A). assert (NB := rng_nonneg _ _ B). assert (P := ten_pos a).
  destruct A as [->|[A1 A2]]; [rewrite Rplus_0_l; now apply (rng_le a); [lia|]|].
  right. assert (X := ten_inv_le a (S a) ltac:(lia)). split; [lra|]. simpl. destruct B as [->|[_ B]]; lra.
Qed.
Lemma rel_refl r : 0 <= r -> rel 0 r r. Proof. intros H. unfold rel. simpl. lra. Qed.
Lemma rel_le j k x r : 0 <= r -> (j <= k)%nat -> rel j x r -> rel k x r.
Proof.
  intros P L [A B]. assert (X := w_le j k L). assert (1 <= w ^ j) by apply w_pos. split.
  - eapply Rle_trans; [|exact A]. apply Rmult_le_compat_l; [exact P|]. apply Rinv_le; lra.
  - eapply Rle_trans; [exact B|]. now apply Rmult_le_compat_l.
Qed.
Lemma rel_nonneg k x r : 0 <= r -> rel k x r -> 0 <= x.
Proof. intros P [A _]. assert (1 <= w ^ k) by apply w_pos. assert (0 <= r / w ^ k); [|lra]. apply Rmult_le_pos; [exact P|]. left. apply Rinv_0_lt_compat. lra. Qed.
Lemma rel_pos k x r : 0 < r -> rel k x r -> 0 < x.
Proof. intros P [A _]. assert (1 <= w ^ k) by apply w_pos. assert (0 < r / w ^ k); [|lra]. apply Rdiv_lt_0_compat; lra. Qed.
Lemma rel_trans j k x y z : 0 <= z -> rel j x y -> rel k y z -> rel (j + k) x z.
Proof.
  intros P [A B] [C D]. assert (1 <= w ^ j) by apply w_pos. assert (1 <= w ^ k) by apply w_pos. unfold rel. rewrite pow_add. split.
  - eapply Rle_trans; [|exact A]. replace (z / (w ^ j * w ^ k)) with (z / w ^ k / w ^ j) by (field; lra). apply Rmult_le_compat_r; [|exact C]. left. apply Rinv_0_lt_compat. lra.
  - eapply Rle_trans; [exact B|]. replace (z * (w ^ j * w ^ k)) with (z * w ^ k * w ^ j) by ring. apply Rmult_le_compat_r; lra.
Qed.
Lemma rel_mul j k x y r s : 0 <= r -> 0 <= s -> rel j x r -> rel k y s -> rel (j + k) (x * y) (r * s).
Proof.
  intros P Q A B. assert (NX := rel_nonneg _ _ _ P A). assert (NY := rel_nonneg _ _ _ Q B). destruct A as [A1 A2], B as [B1 B2].
  assert (1 <= w ^ j) by apply w_pos. assert (1 <= w ^ k) by apply w_pos. unfold rel. rewrite pow_add. split.
  - replace (r * s / (w ^ j * w ^ k)) with ((r / w ^ j) * (s / w ^ k)) by (field; lra).
    apply Rmult_le_compat; try assumption; apply Rmult_le_pos; try assumption; left; apply Rinv_0_lt_compat; lra.
  - replace (r * s * (w ^ j * w ^ k)) with ((r * w ^ j) * (s * w ^ k)) by ring. now apply Rmult_le_compat.
Qed.
Lemma rel_inv k y s : 0 < s -> rel k y s -> rel k (/ y) (/ s).
Proof.
  intros P A. assert (Y := rel_pos _ _ _ P A). destruct A as [A B]. assert (1 <= w ^ k) by apply w_pos. split.
  - unfold Rdiv. rewrite <- Rinv_mult. apply Rinv_le; lra.
  - replace (/ s * w ^ k) with (/ (s / w ^ k)) by (field; lra). apply Rinv_le; [apply Rdiv_lt_0_compat; lra|exact A].
Qed.
Lemma rel_add k x y r s : rel k x r -> rel k y s -> rel k (x + y) (r + s).
Proof. intros [A B] [C D]. unfold rel, Rdiv in *. rewrite !Rmult_plus_distr_r. lra. Qed.
Lemma rel_abs k x r : (k <= 1000)%nat -> 0 <= r -> rel k x r -> Rabs (x - r) <= 3 * INR k * u * r.
Proof.
  intros K P [A B]. destruct (w_small k K) as [W1 W2]. apply abs_le. split; [|nra].
  assert (r / w ^ k >= r - 3 * INR k * u * r); [|lra]. apply Rle_ge. apply Rmult_le_reg_r with (w ^ k); [lra|].
  replace (r / w ^ k * w ^ k) with r by (field; lra). set (y := 3 * INR k * u) in *.
  assert (Y : w ^ k * (1 - y) <= 1) by (assert (0 <= y) by lra; assert (y * 1 <= y * w ^ k) by (apply Rmult_le_compat_l; lra); lra).
  apply Rle_trans with (r * (w ^ k * (1 - y))); [right; ring|]. apply Rle_trans with (r * 1); [now apply Rmult_le_compat_l|lra].
Qed.
Lemma abs_rel x r e : 0 <= r -> 0 <= e <= 2 * u -> Rabs (x - r) <= e * r -> rel 2 x r.
Proof.
  intros P E H. apply abs_le in H. unfold rel. assert (UP := u_pos). split.
  - apply Rle_trans with ((1 - 2 * u) * r); [|nra]. unfold Rdiv. rewrite Rmult_comm. apply Rmult_le_compat_r; [exact P|].
    apply Rmult_le_reg_r with (w ^ 2); [assert (1 <= w ^ 2) by apply w_pos; lra|]. rewrite Rinv_l by (assert (1 <= w ^ 2) by apply w_pos; lra).
    unfold w, u. lra.
  - assert (1 + 2 * u <= w ^ 2) by (unfold w, u; lra). nra.
Qed.
(** one rounding *)
Lemma rng_abs a x r k : rel k x r -> rng a r -> (k <= 1000)%nat -> x = 0 \/ / 10 ^ (S a) <= x <= 10 ^ (S a).
Proof.
  intros [A B] R K. destruct (w_small k K) as [W1 W2].
  assert (INR k <= 1000) by (replace 1000 with (INR 1000) by (rewrite INR_IZR_INZ; reflexivity); now apply le_INR).
  assert (WB : w ^ k <= 2) by (unfold u in W2; lra). clear W2.
  destruct R as [->|[C D]]; [left; unfold Rdiv in A; rewrite Rmult_0_l in *; lra|right]. simpl. assert (P := ten_pos a). assert (Q : 0 < / 10 ^ a) by (now apply Rinv_0_lt_compat).
  split.
  - rewrite Rinv_mult. eapply Rle_trans; [|exact A]. unfold Rdiv. rewrite (Rmult_comm (/ 10)). 
    apply Rmult_le_compat; [lra|lra|exact C|]. apply Rinv_le; lra.
  - assert (r * w ^ k <= r * 2) by (apply Rmult_le_compat_l; lra). lra.
Qed.
Lemma fl_rel x a : x = 0 \/ / 10 ^ a <= x <= 10 ^ a -> (a <= 200)%nat -> rel 1 (fl x) x.
Proof.
  intros [->|[A B]] L; [rewrite fl_0; unfold rel, Rdiv; rewrite !Rmult_0_l; lra|].
  assert (P : 0 < / 10 ^ a) by apply Rinv_0_lt_compat, ten_pos.
  assert (E := fl_e x). rewrite (Rabs_pos_eq x) in E by lra.
  assert (X : eta <= / 1000 * u * x).
  { apply Rle_trans with (/ 1000 * u * / 10 ^ 200).
    - unfold eta. replace 300%nat with (200 + 100)%nat by reflexivity. rewrite pow_add, Rinv_mult.
      rewrite Rmult_comm. apply Rmult_le_compat_r; [left; apply Rinv_0_lt_compat, ten_pos|].
      apply Rle_trans with (/ 10 ^ 20); [apply ten_inv_le; lia|]. unfold u. replace (10 ^ 20) with (IZR (10 ^ 20)) by (now rewrite ten_IZR).
      rewrite <- Rinv_mult. apply Rinv_le; [lra|]. rewrite <- mult_IZR. apply IZR_le. vm_compute. discriminate.
    - apply Rmult_le_compat_l; [unfold u; lra|]. eapply Rle_trans; [apply ten_inv_le; exact L|exact A]. }
  apply abs_le in E. unfold rel. rewrite pow_1. split.
  - apply Rmult_le_reg_r with w; [assert (1 <= w) by apply w_ge1; lra|]. unfold Rdiv. rewrite Rmult_assoc, Rinv_l, Rmult_1_r by (assert (1 <= w) by apply w_ge1; lra).
    assert ((1 - u - / 1000 * u) * x <= fl x) by lra.
    assert (1 <= w) by apply w_ge1. apply Rle_trans with ((1 - u - / 1000 * u) * x * w); [|apply Rmult_le_compat_r; lra].
    assert (1 <= (1 - u - / 1000 * u) * w) by (unfold w, u; lra). nra.
  - unfold w. assert (0 <= u * x) by (apply Rmult_le_pos; [unfold u; lra|lra]). lra.
Qed.
Lemma near_mul j k a b x y r s : near j a x r -> near k b y s -> (j + k <= 1000)%nat -> (a + b < 200)%nat -> near (S (j + k)) (a + b) (fmul x y) (r * s).
Proof.
  intros (FX & RX & GX) (FY & RY & GY) K L. assert (P := rng_nonneg _ _ GX). assert (Q := rng_nonneg _ _ GY).
  assert (R := rel_mul _ _ _ _ _ _ P Q RX RY). assert (G := rng_mul _ _ _ _ GX GY). assert (B := rng_abs _ _ _ _ R G K).
  destruct (mul_fits x y FX FY) as [F V].
  { assert (N := rel_nonneg _ _ _ (rng_nonneg _ _ G) R). rewrite Rabs_pos_eq by exact N. destruct B as [->|[_ B]]; [left; apply ten_pos|].
    eapply Rle_trans; [exact B|]. apply ten_le; lia. }
  split; [exact F|]. split; [|exact G]. rewrite V. change (S (j + k)) with (1 + (j + k))%nat.
  apply rel_trans with (val x * val y); [apply rng_nonneg with (a + b)%nat; exact G|apply fl_rel with (S (a + b)); [exact B|lia]|exact R].
Qed.
Lemma near_div j k a b x y r s : near j a x r -> near k b y s -> s <> 0 -> (j + k <= 1000)%nat -> (a + b < 200)%nat -> near (S (j + k)) (a + b) (fdiv x y) (r / s).
Proof.
  intros (FX & RX & GX) (FY & RY & GY) N K L. assert (P := rng_nonneg _ _ GX). assert (Q := rng_nonneg _ _ GY).
  assert (QP : 0 < s) by lra. assert (QI : 0 < / s) by now apply Rinv_0_lt_compat.
  assert (R := rel_mul _ _ _ _ _ _ P (Rlt_le _ _ QI) RX (rel_inv _ _ _ QP RY)). assert (G := rng_div _ _ _ _ N GX GY). assert (B := rng_abs _ _ _ _ R G K).
  assert (YP := rel_pos _ _ _ QP RY).
  destruct (div_fits x y FX) as [F V]; [lra| |].
  { assert (M := rel_nonneg _ _ _ (rng_nonneg _ _ G) R). unfold Rdiv. rewrite Rabs_pos_eq by exact M. destruct B as [->|[_ B]]; [left; apply ten_pos|].
    eapply Rle_trans; [exact B|]. apply ten_le; lia. }
  split; [exact F|]. split; [|exact G]. rewrite V. change (S (j + k)) with (1 + (j + k))%nat.
  apply rel_trans with (val x / val y); [apply rng_nonneg with (a + b)%nat; exact G|apply fl_rel with (S (a + b)); [exact B|lia]|exact R].
Qed.
Lemma near_add k a x y r s : near k a x r -> near k a y s -> (k <= 1000)%nat -> (a < 199)%nat -> near (S k) (S a) (fadd x y) (r + s).
Proof.
  intros (FX & RX & GX) (FY & RY & GY) K L.
  assert (R := rel_add _ _ _ _ _ RX RY). assert (G := rng_add _ _ _ GX GY). assert (B := rng_abs _ _ _ _ R G K).
  destruct (add_fits x y FX FY) as [F V].
  { assert (N := rel_nonneg _ _ _ (rng_nonneg _ _ G) R). rewrite Rabs_pos_eq by exact N. destruct B as [->|[_ B]]; [left; apply ten_pos|].
    eapply Rle_trans; [exact B|]. apply ten_le; lia. }
  split; [exact F|]. split; [|exact G]. rewrite V. change (S k) with (1 + k)%nat.
  apply rel_trans with (val x + val y); [apply rng_nonneg with (S a); exact G|apply fl_rel with (S (S a)); [exact B|lia]|exact R].
Qed.
Lemma near_le j k a b x r : (j <= k)%nat -> (a <= b)%nat -> near j a x r -> near k b x r.
Proof.
  intros J A (F & R & G). split; [exact F|]. split; [|apply (rng_le a b r A G)]. apply rel_le with j; [apply (rng_nonneg a); exact G|exact J|exact R].
Qed.
(** numbers of the code *)
Lemma sixteen : 9007199254740992 <= 10 ^ 16. Proof. rewrite ten_IZR. apply IZR_le. vm_compute. discriminate. Qed.
Lemma near_int n : (0 <= n < 2 ^ 53)%Z -> near 0 16 (of_int n) (IZR n).
Proof.
  intros H. destruct (of_int_ok n ltac:(lia)) as [F V]. split; [exact F|]. rewrite V. split; [apply rel_refl, IZR_le; lia|].
  destruct (Z.eq_dec n 0) as [->|N]; [now left|right]. assert (1 <= IZR n) by (apply IZR_le; lia). assert (IZR n <= 9007199254740992) by (apply IZR_le; lia).
  assert (S := sixteen). split; [|lra]. apply Rle_trans with 1; [|assumption]. rewrite <- Rinv_1. apply Rinv_le; [lra|apply ten_ge1].
Qed.
Lemma near_lit n d : (0 <= n)%Z -> short n d -> near 2 16 (lit n d) (IZR n / IZR d).
Proof.
  intros P S. assert (N : 0 <= IZR n / IZR d). { destruct S as (_ & B & _). apply Rmult_le_pos; [now apply IZR_le|]. left. now apply Rinv_0_lt_compat, IZR_lt. }
  split; [apply lit_ok; exact S|]. split.
  - apply (abs_rel _ _ u); [exact N|unfold u; lra|]. rewrite <- (Rabs_pos_eq (IZR n / IZR d)) at 2 by exact N. now apply lit_err.
  - destruct S as (A & B & C). destruct (Z.eq_dec n 0) as [->|NZ]; [left; unfold Rdiv; ring|right]. assert (T := sixteen).
    assert (1 <= IZR n) by (apply IZR_le; lia). assert (IZR n <= 9007199254740992) by (apply IZR_le; lia).
    assert (1 <= IZR d) by (apply IZR_le; lia). assert (IZR d <= 9007199254740992) by (apply IZR_le; lia).
    assert (/ IZR d <= 1) by (rewrite <- Rinv_1; apply Rinv_le; lra). assert (0 < / IZR d) by (apply Rinv_0_lt_compat; lra).
    assert (/ 10 ^ 16 <= / IZR d) by (apply Rinv_le; lra). unfold Rdiv. split; nra.
Qed.
Lemma near_num x : positive x -> near 2 16 (num_float x) (num_val x).
Proof. intros [A B]. apply near_lit; [lia|exact B]. Qed.
Lemma num_pos x : positive x -> 0 < num_val x.
Proof. intros (A & _ & B & _). unfold num_val. apply Rdiv_lt_0_compat; now apply IZR_lt. Qed.
Lemma near_accurate f F k a x r : accurate f F -> near k a x r -> (k <= 1000)%nat -> (a < 60)%nat -> is_finite (f x) = true /\ (0 <= F (val x) -> rel 2 (val (f x)) (F (val x))).
Proof.
  intros A (FX & R & G) K L. destruct (A x FX) as [FF E].
  - destruct (rng_abs _ _ _ _ R G K) as [->|[B C]]; [now left|right]. assert (X := ten_inv_le (S a) 60 ltac:(lia)). assert (Y := ten_le (S a) 60 ltac:(lia)). lra.
  - split; [exact FF|]. intros P. rewrite (Rabs_pos_eq (F (val x))) in E by exact P. apply (abs_rel _ _ (2 * u)); [exact P|unfold u; lra|exact E].
Qed.
