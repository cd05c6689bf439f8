(** Rounding errors of capacitances, continued: the formulas and the sums. *)
From Coq Require Import ZArith Reals Lra Lia Psatz List Bool Machin Ratan.
From Flocq Require Import Core.Core IEEE754.BinarySingleNaN.
From Verif Require Import FP_Model FP_Spec FP_Proofs FC_Model FC_Spec FC_Proofs.
Import ListNotations.
Local Open Scope R_scope.

(** ** pi *)
Lemma pi_near : Rabs (884279719003555 / 281474976710656 - PI) <= 2 * u * PI.
Proof.
  assert (H := PI_2_3_7_ineq 9). cbn [Nat.mul Nat.add sum_f_R0] in H.
  unfold tg_alt, PI_2_3_7_tg, Ratan_seq in H. cbn [Nat.mul Nat.add pow] in H.
  rewrite !INR_IZR_INZ in H. cbn [Z.of_nat Pos.of_succ_nat Pos.succ] in H.
  unfold u. apply Rabs_le. destruct H as [A B]. split; lra.
Qed.
Lemma pi_range : 3 <= PI <= 4. Proof. assert (A := pi_near). apply abs_le in A. unfold u in A. lra. Qed.
Lemma near_pi : near 4 1 math_pi PI.
Proof.
  assert (P := pi_range). assert (S : short 884279719003555 281474976710656) by (unfold short; lia).
  destruct (near_lit 884279719003555 281474976710656 ltac:(lia) S) as (F & R & _). split; [exact F|]. split.
  - apply (rel_trans 2 2 _ (884279719003555 / 281474976710656)); [lra|exact R|]. apply (abs_rel _ _ (2 * u)); [lra|unfold u; lra|apply pi_near].
  - right. rewrite pow_1. lra.
Qed.
(** ** atan *)
Lemma atan_slope x y : 0 <= x < y -> (y - x) / (1 + y * y) <= atan y - atan x <= (y - x) / (1 + x * x).
Proof.
  intros H. destruct (MVT_cor2 atan (fun c => / (1 + c ^ 2)) x y ltac:(lra)) as (c & -> & C).
  - intros c _. apply derivable_pt_lim_atan.
  - unfold Rdiv. rewrite (Rmult_comm (/ _)). assert (P : 0 <= x * x) by nra. assert (x * x <= c ^ 2 <= y * y) by (simpl; split; nra).
    split; apply Rmult_le_compat_l; try lra; apply Rinv_le; lra.
Qed.
Lemma atan_lower x : 0 <= x -> x / (1 + x * x) <= atan x.
Proof.
  intros H. destruct (Req_dec x 0) as [->|N]; [rewrite atan_0; lra|]. assert (A := atan_slope 0 x ltac:(lra)). rewrite atan_0, !Rminus_0_r in A. lra.
Qed.
Lemma atan_le x y : x <= y -> atan x <= atan y.
Proof. intros [H | ->]; [left; now apply atan_increasing|lra]. Qed.
Lemma atan_nonneg x : 0 <= x -> 0 <= atan x. Proof. intros H. rewrite <- atan_0. now apply atan_le. Qed.
Lemma atan_scale x v : 0 <= x -> 1 <= v -> atan (v * x) <= v * atan x.
Proof.
  intros X V. assert (N := atan_nonneg x X). destruct (Req_dec (v * x) x) as [->|E]; [nra|].
  assert (XP : 0 < x). { destruct (Req_dec x 0) as [->|]; [rewrite Rmult_0_r in E; now elim E|lra]. }
  assert (A := atan_slope x (v * x) ltac:(nra)). assert (L := atan_lower x X).
  replace ((v * x - x) / (1 + x * x)) with ((v - 1) * (x / (1 + x * x))) in A by (field; nra).
  assert ((v - 1) * (x / (1 + x * x)) <= (v - 1) * atan x) by (apply Rmult_le_compat_l; lra). lra.
Qed.
Lemma rel_atan k x r : 0 <= r -> rel k x r -> rel k (atan x) (atan r).
Proof.
  intros P R. assert (N := rel_nonneg _ _ _ P R). destruct R as [A B]. assert (W := w_pos k). assert (WP : 0 < / w ^ k) by (apply Rinv_0_lt_compat; lra). split.
  - apply Rmult_le_reg_r with (w ^ k); [lra|]. replace (atan r / w ^ k * w ^ k) with (atan r) by (field; lra).
    replace r with (w ^ k * (r / w ^ k)) at 1 by (field; lra). eapply Rle_trans; [apply atan_scale; [|exact W]|].
    + apply Rmult_le_pos; lra.
    + rewrite Rmult_comm. apply Rmult_le_compat_r; [lra|]. now apply atan_le.
  - eapply Rle_trans; [apply atan_le, B|]. rewrite Rmult_comm. eapply Rle_trans; [now apply atan_scale|]. lra.
Qed.
Lemma rng_atan a r : rng a r -> rng (S a) (atan r).
Proof.
  intros [->|[A B]]; [left; apply atan_0|right]. assert (P := ten_pos a). assert (Q : 0 < / 10 ^ a) by now apply Rinv_0_lt_compat.
  assert (Q1 : / 10 ^ a <= 1) by (rewrite <- Rinv_1; apply Rinv_le; [lra|apply ten_ge1]). assert (T := ten_ge1 a). simpl. split.
  - apply Rle_trans with (atan (/ 10 ^ a)); [|now apply atan_le]. eapply Rle_trans; [|apply atan_lower; lra]. rewrite Rinv_mult, Rmult_comm.
    apply Rmult_le_compat_l; [lra|]. apply Rinv_le; nra.
  - destruct (atan_bound r) as [_ C]. assert (D := pi_range). lra.
Qed.
Lemma near_atan f k a x r : accurate f atan -> near k a x r -> (k <= 1000)%nat -> (a < 60)%nat -> near (2 + k) (S a) (f x) (atan r).
Proof.
  intros A N K L. destruct (near_accurate f atan k a x r A N K L) as [F R]. destruct N as (_ & RX & G). assert (P := rng_nonneg _ _ G).
  assert (X := rel_nonneg _ _ _ P RX). split; [exact F|]. split; [|now apply rng_atan].
  apply rel_trans with (atan (val x)); [now apply atan_nonneg|apply R; now apply atan_nonneg|now apply rel_atan].
Qed.
Lemma near_square f k a x r : accurate f (fun x => x * x) -> near k a x r -> (k <= 1000)%nat -> (a < 60)%nat -> near (2 + (k + k)) (a + a) (f x) (r * r).
Proof.
  intros A N K L. destruct (near_accurate f _ k a x r A N K L) as [F R]. destruct N as (_ & RX & G). assert (P := rng_nonneg _ _ G).
  assert (X := rel_nonneg _ _ _ P RX). split; [exact F|]. split; [|now apply rng_mul].
  apply rel_trans with (val x * val x); [nra|apply R; nra|now apply rel_mul].
Qed.

(** ** overlaps and sidewalls *)
Lemma near_thousand : near 0 16 (of_int 1000) 1000. Proof. apply near_int. lia. Qed.
Lemma near_overlap square s area c : accurate square (fun x => x * x) -> positive (unit s) -> (0 <= area < 2 ^ 53)%Z -> positive c ->
  near 20 120 (overlap_cap square (num_float (unit s)) area (num_float c)) (formula s (Overlap area c)).
Proof.
  intros SQ U A C. assert (N := near_square _ _ _ _ _ SQ (near_num _ U) ltac:(lia) ltac:(lia)).
  assert (M := near_mul _ _ _ _ _ _ _ _ (near_int _ A) N ltac:(cbn; lia) ltac:(cbn; lia)).
  assert (M2 := near_mul _ _ _ _ _ _ _ _ M (near_num _ C) ltac:(cbn; lia) ltac:(cbn; lia)).
  assert (M3 := near_div _ _ _ _ _ _ _ _ M2 near_thousand ltac:(lra) ltac:(cbn; lia) ltac:(cbn; lia)).
  eapply near_le; [| |exact M3]; cbn; lia.
Qed.
Lemma near_um s n : positive (unit s) -> (0 <= n < 2 ^ 53)%Z -> near 3 32 (fmul (of_int n) (num_float (unit s))) (IZR n * num_val (unit s)).
Proof. intros U N. exact (near_mul _ _ _ _ _ _ _ _ (near_int _ N) (near_num _ U) ltac:(cbn; lia) ltac:(cbn; lia)). Qed.
Lemma um_pos s n : positive (unit s) -> (0 < n)%Z -> 0 < IZR n * num_val (unit s).
Proof. intros U N. apply Rmult_lt_0_compat; [now apply IZR_lt|now apply num_pos]. Qed.
Lemma near_sidewall s l d c o : positive (unit s) -> count l -> (0 <= d < 2 ^ 53)%Z -> positive c -> (0 <= numer o)%Z -> short (numer o) (denom o) ->
  (0 < d \/ 0 < numer o)%Z -> near 20 120 (sidewall_cap (num_float (unit s)) l d (num_float c) (num_float o)) (formula s (Sidewall l d c o)).
Proof.
  intros U L D C O1 O2 P. unfold count in L.
  assert (LL := near_mul _ _ _ _ _ _ _ _ (near_um s l U ltac:(lia)) (near_num _ C) ltac:(cbn; lia) ltac:(cbn; lia)).
  assert (OO : near 3 32 (num_float o) (num_val o)) by (eapply near_le; [| |apply near_lit; assumption]; lia).
  assert (DD := near_add _ _ _ _ _ _ (near_um s d U D) OO ltac:(lia) ltac:(lia)).
  assert (NZ : IZR d * num_val (unit s) + num_val o <> 0).
  { assert (X := num_pos _ U). assert (Y : 0 <= IZR d) by (apply IZR_le; lia). destruct O2 as (_ & O2 & _). apply IZR_lt in O2.
    assert (Z : 0 <= num_val o) by (apply Rmult_le_pos; [now apply IZR_le|left; now apply Rinv_0_lt_compat]).
    assert (0 <= IZR d * num_val (unit s)) by (apply Rmult_le_pos; lra).
    destruct P as [P|P]; [assert (Q := um_pos s d U P); lra|]. apply IZR_lt in P. assert (0 < num_val o) by (now apply Rdiv_lt_0_compat). lra. }
  assert (Q := near_div _ _ _ _ _ _ _ _ LL DD NZ ltac:(cbn; lia) ltac:(cbn; lia)).
  assert (Q2 := near_div _ _ _ _ _ _ _ _ Q (near_int 2 ltac:(lia)) ltac:(lra) ltac:(cbn; lia) ltac:(cbn; lia)).
  assert (Q3 := near_div _ _ _ _ _ _ _ _ Q2 near_thousand ltac:(lra) ltac:(cbn; lia) ltac:(cbn; lia)).
  eapply near_le; [| |exact Q3]; cbn; lia.
Qed.

(** ** fringes *)
Lemma alpha_scale : alpha_scale_factor = lit 2 100. Proof. apply B2SF_inj. vm_compute. reflexivity. Qed.
Lemma near_alpha c : positive c -> near 5 18 (fmul (num_float c) alpha_scale_factor) (2 / 100 * num_val c).
Proof.
  intros C. rewrite (Rmult_comm (2 / 100)), alpha_scale. assert (S : short 2 100) by (unfold short; lia).
  apply (near_mul 2 2 16 2); [now apply near_num| |lia|lia].
  destruct (near_lit 2 100 ltac:(lia) S) as (F & R & _). split; [exact F|]. split; [exact R|]. right. simpl. lra.
Qed.
Lemma near_ratio atanf c k a x r : accurate atanf atan -> positive c -> near k a x r -> (k <= 900)%nat -> (a < 40)%nat ->
  near (14 + k) (22 + a) (atan_ratio atanf (fmul (num_float c) alpha_scale_factor) x) (fraction (num_val c) r).
Proof.
  intros A C N K L. assert (M := near_mul _ _ _ _ _ _ _ _ (near_alpha c C) N ltac:(cbn; lia) ltac:(cbn; lia)).
  assert (T := near_atan _ _ _ _ _ A M ltac:(cbn; lia) ltac:(cbn; lia)).
  assert (TWO : near 0 1 (of_int 2) 2). { destruct (near_int 2 ltac:(lia)) as (F & R & _). split; [exact F|]. split; [exact R|]. right. simpl. lra. }
  assert (PI0 : PI <> 0) by (assert (X := pi_range); lra).
  assert (P := near_div _ _ _ _ _ _ _ _ TWO near_pi PI0 ltac:(cbn; lia) ltac:(cbn; lia)).
  assert (Q := near_mul _ _ _ _ _ _ _ _ P T ltac:(cbn; lia) ltac:(cbn; lia)).
  eapply near_le; [| |exact Q]; cbn; lia.
Qed.
Lemma fraction_range c x : 0 <= fraction c x -> fraction c x < 1.
Proof.
  intros _. unfold fraction. destruct (atan_bound (2 / 100 * c * x)) as [_ B]. assert (P := pi_range).
  apply Rmult_lt_reg_r with (PI / 2); [lra|]. replace (2 / PI * atan (2 / 100 * c * x) * (PI / 2)) with (atan (2 / 100 * c * x)) by (field; lra). lra.
Qed.
Lemma fraction_pos c x : 0 < c -> 0 < x -> 0 < fraction c x.
Proof.
  intros C X. unfold fraction. assert (P := pi_range). apply Rmult_lt_0_compat; [apply Rdiv_lt_0_compat; lra|]. rewrite <- atan_0. apply atan_increasing.
  apply Rmult_lt_0_compat; lra.
Qed.
Lemma flt_ok x y : is_finite x = true -> is_finite y = true -> (flt x y = true <-> val x < val y).
Proof. intros A B. unfold flt. rewrite Bltb_correct by assumption. destruct (Rlt_bool_spec (val x) (val y)); split; intros; [assumption|reflexivity|discriminate|exfalso; lra]. Qed.
Lemma near_fraction atanf s c x r : accurate atanf atan -> positive (halo s) -> positive c -> near 3 32 x r ->
  let alpha := fmul (num_float c) alpha_scale_factor in
  let full := atan_ratio atanf alpha (num_float (halo s)) in
  near 40 100 (if fit_halo s && flt full (of_int 1) then fdiv (atan_ratio atanf alpha x) full else atan_ratio atanf alpha x) (fringe_fraction s (num_val c) r).
Proof.
  intros A H C N alpha full. assert (R := near_ratio _ _ _ _ _ _ A C N ltac:(lia) ltac:(lia)). fold alpha in R.
  assert (F := near_ratio _ _ _ _ _ _ A C (near_num _ H) ltac:(lia) ltac:(lia)). fold alpha in F. fold full in F.
  set (h := fraction (num_val c) (num_val (halo s))) in *. assert (HP : 0 < h) by (apply fraction_pos; now apply num_pos).
  unfold fringe_fraction. fold h. destruct (fit_halo s); cbn [andb].
  - destruct (flt full (of_int 1)) eqn:E.
    + assert (Q := near_div _ _ _ _ _ _ _ _ R F ltac:(lra) ltac:(cbn; lia) ltac:(cbn; lia)). eapply near_le; [| |exact Q]; cbn; lia.
    + destruct F as (FF & FR & FG). destruct (of_int_ok 1 ltac:(lia)) as [F1 V1].
      assert (G : 1 <= val full). { destruct (Rle_or_lt 1 (val full)) as [G|G]; [exact G|]. rewrite <- V1 in G. apply flt_ok in G; [congruence|exact FF|exact F1]. }
      assert (L : h < 1) by (apply fraction_range; unfold h in HP; lra).
      destruct R as (RF & RR & RG). assert (P := rng_nonneg _ _ RG). set (y := fraction (num_val c) r) in *.
      split; [exact RF|]. assert (I : 1 <= / h) by (rewrite <- Rinv_1; apply Rinv_le; lra).
      assert (T := rng_div _ _ _ _ (Rgt_not_eq _ _ HP) RG FG). split; [|eapply rng_le; [|exact T]; cbn; lia].
      apply (rel_le (17 + 16)); [apply Rmult_le_pos; lra|lia|]. apply rel_trans with y; [apply Rmult_le_pos; lra|exact RR|].
      destruct FR as [_ FB]. assert (W := w_pos 16). change (14 + 2)%nat with 16%nat in FB. unfold rel. set (v := w ^ 16) in *. split.
      * apply Rmult_le_reg_r with (v * h); [apply Rmult_lt_0_compat; lra|]. replace (y / h / v * (v * h)) with y by (field; lra).
        rewrite <- (Rmult_1_r y) at 1. apply Rmult_le_compat_l; [exact P|]. lra.
      * rewrite <- (Rmult_1_r y) at 1. unfold Rdiv. rewrite Rmult_assoc. apply Rmult_le_compat_l; [exact P|]. rewrite <- (Rmult_1_r 1) at 1. apply Rmult_le_compat; lra.
  - unfold Rdiv. rewrite Rinv_1, Rmult_1_r. eapply near_le; [| |exact R]; cbn; lia.
Qed.
(** errors of differences, compared with something larger *)
Definition acc (e : R) (x : float) (r s : R) : Prop := is_finite x = true /\ Rabs (val x - r) <= e * s /\ Rabs r <= s.
Lemma acc_scale e x r s : acc e x r s -> 0 <= s.
Proof. intros (_ & _ & H). eapply Rle_trans; [apply Rabs_pos|exact H]. Qed.
Lemma acc_le e e' x r s : e <= e' -> acc e x r s -> acc e' x r s.
Proof. intros H A. assert (P := acc_scale _ _ _ _ A). destruct A as (F & A & B). split; [exact F|]. split; [|exact B]. eapply Rle_trans; [exact A|]. now apply Rmult_le_compat_r. Qed.
Lemma acc_val e x r s : acc e x r s -> Rabs (val x) <= (1 + e) * s.
Proof. intros (_ & A & B). replace (val x) with (r + (val x - r)) by ring. eapply Rle_trans; [apply Rabs_triang|]. lra. Qed.
Lemma near_acc k a x r : near k a x r -> (k <= 1000)%nat -> acc (3 * INR k * u) x r r.
Proof. intros (F & R & G) K. assert (P := rng_nonneg _ _ G). split; [exact F|]. split; [now apply rel_abs|]. rewrite Rabs_pos_eq; lra. Qed.
Lemma acc_sub k a x y r q : near k a x r -> near k a y q -> q <= r -> (k <= 40)%nat -> (a <= 150)%nat -> acc ((6 * INR k + 2) * u) (fsub x y) (r - q) r.
Proof.
  intros NX NY L K A. assert (GX := NX). assert (GY := NY). destruct GX as (_ & _ & GX), GY as (_ & _ & GY). assert (PX := rng_nonneg _ _ GX). assert (PY := rng_nonneg _ _ GY).
  destruct (near_acc _ _ _ _ NX ltac:(lia)) as (FX & EX & _), (near_acc _ _ _ _ NY ltac:(lia)) as (FY & EY & _).
  assert (KR : 0 <= INR k <= 40) by (split; [apply pos_INR|replace 40 with (INR 40) by (rewrite INR_IZR_INZ; reflexivity); now apply le_INR]).
  assert (UP := u_pos). assert (KU : 0 <= INR k * u) by (apply Rmult_le_pos; lra).
  assert (E1 : 3 * INR k * u * q <= 3 * INR k * u * r) by (apply Rmult_le_compat_l; lra).
  apply abs_le in EX. apply abs_le in EY.
  assert (KS : INR k * u <= / 1000) by (apply Rle_trans with (40 * u); [apply Rmult_le_compat_r; lra|unfold u; lra]).
  set (z := INR k * u) in *. replace (3 * INR k * u) with (3 * z) in * by (unfold z; ring).
  assert (ZR : 0 <= z * r <= / 1000 * r) by (split; [apply Rmult_le_pos; lra|apply Rmult_le_compat_r; lra]).
  assert (D : Rabs (val x - val y) <= 2 * r) by (apply abs_le; lra).
  destruct (sub_fits x y FX FY) as [F V].
  { eapply Rle_trans; [exact D|]. assert (T : r <= 10 ^ 150). { destruct GX as [->|[_ GX]]; [left; apply ten_pos|]. eapply Rle_trans; [exact GX|now apply ten_le]. }
    replace 200%nat with (150 + 50)%nat by reflexivity. rewrite pow_add. assert (T2 := ten_le 1 50 ltac:(lia)). rewrite pow_1 in T2. assert (T3 := ten_pos 150). nra. }
  split; [exact F|]. split; [|apply abs_le; lra]. rewrite V. assert (S := sub_plus x y).
  assert (u * Rabs (val x - val y) <= u * (2 * r)) by (apply Rmult_le_compat_l; lra). apply abs_le in S.
  replace ((6 * INR k + 2) * u * r) with (6 * (z * r) + u * (2 * r)) by (unfold z; ring). apply abs_le. lra.
Qed.
(** one more factor *)
Lemma acc_factor e x r s z q k (f : float) : acc e x r s -> 0 <= e <= 2000 * u -> (k <= 10)%nat -> 0 <= q -> rel k z q -> rng 199 (s * q) -> s * q <> 0 ->
  (Rabs (val x * z) <= 10 ^ 200 -> is_finite f = true /\ val f = fl (val x * z)) -> acc (e + (3 * INR k + 2) * u) f (r * q) (s * q).
Proof.
  intros A E K Q R G NZ H. assert (PS := acc_scale _ _ _ _ A). destruct A as (FX & EX & BX).
  assert (ZA := rel_abs k z q ltac:(lia) Q R). assert (ZN := rel_nonneg _ _ _ Q R).
  assert (KR : 0 <= INR k <= 10) by (split; [apply pos_INR|replace 10 with (INR 10) by (rewrite INR_IZR_INZ; reflexivity); now apply le_INR]).
  assert (UP := u_pos). assert (KU : 0 <= INR k * u <= 10 * u) by (split; [apply Rmult_le_pos; lra|apply Rmult_le_compat_r; lra]).
  set (y := INR k * u) in *. replace (3 * INR k * u) with (3 * y) in * by (unfold y; ring).
  assert (ZB : z <= (1 + 3 * y) * q) by (apply abs_le in ZA; lra).
  assert (SQ : 0 <= s * q) by now apply Rmult_le_pos.
  assert (D : Rabs (val x * z - r * q) <= (e + e * (3 * y) + 3 * y) * (s * q)).
  { replace (val x * z - r * q) with ((val x - r) * z + r * (z - q)) by ring. eapply Rle_trans; [apply Rabs_triang|]. rewrite !Rabs_mult, (Rabs_pos_eq z) by exact ZN.
    assert (Rabs (val x - r) * z <= e * s * ((1 + 3 * y) * q)) by (apply Rmult_le_compat; [apply Rabs_pos|exact ZN|exact EX|exact ZB]).
    assert (Rabs r * Rabs (z - q) <= s * (3 * y * q)) by (apply Rmult_le_compat; [apply Rabs_pos|apply Rabs_pos|exact BX|exact ZA]).
    replace ((e + e * (3 * y) + 3 * y) * (s * q)) with (e * s * ((1 + 3 * y) * q) + s * (3 * y * q)) by ring. lra. }
  assert (EY : e * (3 * y) <= / 1000 * u). { apply Rle_trans with (2000 * u * (30 * u)); [apply Rmult_le_compat; lra|unfold u; lra]. }
  assert (EY0 : 0 <= e * (3 * y)) by (apply Rmult_le_pos; lra).
  assert (P : Rabs (val x * z) <= 11 / 10 * (s * q)).
  { replace (val x * z) with (r * q + (val x * z - r * q)) by ring. eapply Rle_trans; [apply Rabs_triang|]. rewrite Rabs_mult, (Rabs_pos_eq q) by exact Q.
    assert (Rabs r * q <= s * q) by (apply Rmult_le_compat_r; lra).
    assert ((e + e * (3 * y) + 3 * y) * (s * q) <= / 10 * (s * q)) by (apply Rmult_le_compat_r; [exact SQ|unfold u in *; lra]). lra. }
  destruct G as [G|[G1 G2]]; [now elim NZ|].
  destruct H as [F V].
  { eapply Rle_trans; [exact P|]. replace 200%nat with (S 199) by reflexivity. change (10 ^ S 199) with (10 * 10 ^ 199). assert (T := ten_pos 199). lra. }
  split; [exact F|]. split; [|rewrite Rabs_mult, (Rabs_pos_eq q) by exact Q; apply Rmult_le_compat_r; lra].
  rewrite V. assert (L := fl_e (val x * z)).
  assert (ET : eta <= / 10 * u * (s * q)).
  { apply Rle_trans with (/ 10 * u * / 10 ^ 199); [|apply Rmult_le_compat_l; [unfold u; lra|exact G1]]. unfold eta.
    replace 300%nat with (101 + 199)%nat by reflexivity. rewrite pow_add, Rinv_mult. apply Rmult_le_compat_r; [left; apply Rinv_0_lt_compat, ten_pos|].
    apply Rle_trans with (/ 10 ^ 20); [apply ten_inv_le; lia|]. unfold u. replace (10 ^ 20) with (IZR (10 ^ 20)) by (now rewrite ten_IZR).
    rewrite <- Rinv_mult. apply Rinv_le; [lra|]. rewrite <- mult_IZR. apply IZR_le. vm_compute. discriminate. }
  replace (fl (val x * z) - r * q) with ((fl (val x * z) - val x * z) + (val x * z - r * q)) by ring. eapply Rle_trans; [apply Rabs_triang|].
  assert (u * Rabs (val x * z) <= u * (11 / 10 * (s * q))) by (apply Rmult_le_compat_l; lra).
  assert (e * (3 * y) * (s * q) <= / 1000 * u * (s * q)) by (apply Rmult_le_compat_r; lra).
  assert (0 <= u * (s * q)) by (apply Rmult_le_pos; lra).
  replace ((e + (3 * INR k + 2) * u) * (s * q)) with (e * (s * q) + 3 * y * (s * q) + 2 * (u * (s * q))) by (unfold y; ring).
  lra.
Qed.
Lemma acc_mul e x r s k b y q a : acc e x r s -> near k b y q -> 0 <= e <= 2000 * u -> (k <= 10)%nat -> rng a s -> 0 < s -> 0 < q -> (a + b <= 199)%nat ->
  acc (e + (3 * INR k + 2) * u) (fmul x y) (r * q) (s * q).
Proof.
  intros A (F & R & G) E K GS PS PQ L. apply (acc_factor e x r s (val y) q k); try assumption; try lra.
  - eapply rng_le; [|apply rng_mul; eassumption]. exact L.
  - assert (0 < s * q) by now apply Rmult_lt_0_compat. lra.
  - intros H. apply mul_fits; [apply A|exact F|exact H].
Qed.
Lemma acc_div e x r s k b y q a : acc e x r s -> near k b y q -> 0 <= e <= 2000 * u -> (k <= 10)%nat -> rng a s -> 0 < s -> 0 < q -> (a + b <= 199)%nat ->
  acc (e + (3 * INR k + 2) * u) (fdiv x y) (r / q) (s / q).
Proof.
  intros A (F & R & G) E K GS PS PQ L. assert (QI : 0 < / q) by now apply Rinv_0_lt_compat.
  apply (acc_factor e x r s (/ val y) (/ q) k); try assumption; try lra.
  - now apply rel_inv.
  - eapply rng_le; [|apply rng_div; [|eassumption|eassumption]]; [exact L|lra].
  - assert (0 < s * / q) by now apply Rmult_lt_0_compat. lra.
  - intros H. apply div_fits; [apply A| |exact H]. assert (Y := rel_pos _ _ _ PQ R). lra.
Qed.
Lemma fringe_fraction_0 s c : fringe_fraction s c 0 = 0.
Proof. unfold fringe_fraction, fraction. rewrite Rmult_0_r, atan_0. unfold Rdiv. ring. Qed.
Lemma fringe_fraction_mono s c x y : positive (halo s) -> 0 < c -> x <= y -> fringe_fraction s c x <= fringe_fraction s c y.
Proof.
  intros H C L. unfold fringe_fraction, Rdiv. apply Rmult_le_compat_r.
  - left. apply Rinv_0_lt_compat. destruct (fit_halo s); [|lra]. apply fraction_pos; [exact C|now apply num_pos].
  - unfold fraction. assert (P := pi_range). apply Rmult_le_compat_l; [apply Rmult_le_pos; [lra|left; apply Rinv_0_lt_compat; lra]|].
    apply atan_le. apply Rmult_le_compat_l; [lra|exact L].
Qed.
Lemma fringe_fraction_pos s c x : positive (halo s) -> 0 < c -> 0 < x -> 0 < fringe_fraction s c x.
Proof.
  intros H C X. unfold fringe_fraction. apply Rdiv_lt_0_compat; [now apply fraction_pos|]. destruct (fit_halo s); [|lra]. apply fraction_pos; [exact C|now apply num_pos].
Qed.
Lemma acc_fringe atanf s l n f oc sc : accurate atanf atan -> positive (unit s) -> positive (halo s) -> count l -> (0 <= n < f)%Z -> (f < 2 ^ 53)%Z -> positive oc -> positive sc ->
  acc (300 * u) (fringe_cap atanf (num_float (unit s)) (num_float (halo s)) (fit_halo s) l n f (num_float oc) (num_float sc)) (formula s (Fringe l n f oc sc)) (formula s (Fringe l 0 f oc sc)).
Proof.
  intros A U H L N F OC SC. unfold count in L. cbn [formula]. rewrite Rmult_0_l, fringe_fraction_0, Rminus_0_r.
  assert (NF := near_fraction _ s _ _ _ A H OC (near_um s f U ltac:(lia))). assert (NN := near_fraction _ s _ _ _ A H OC (near_um s n U ltac:(lia))).
  cbv zeta in NF, NN. unfold fringe_cap. cbv zeta.
  match type of NF with near _ _ ?t _ => set (x := t) in * end. match type of NN with near _ _ ?t _ => set (y := t) in * end.
  set (ff := fringe_fraction s (num_val oc) (IZR f * num_val (unit s))) in *. set (fn := fringe_fraction s (num_val oc) (IZR n * num_val (unit s))) in *.
  assert (LE : fn <= ff). { apply fringe_fraction_mono; [exact H|now apply num_pos|]. apply Rmult_le_compat_r; [left; now apply num_pos|apply IZR_le; lia]. }
  assert (FP : 0 < ff) by (apply fringe_fraction_pos; [exact H|now apply num_pos|apply um_pos; [exact U|lia]]).
  assert (S1 := acc_sub _ _ _ _ _ _ NF NN LE ltac:(lia) ltac:(lia)). destruct NF as (_ & _ & GF).
  assert (UP := u_pos). assert (I40 : INR 40 = 40) by (rewrite INR_IZR_INZ; reflexivity). rewrite I40 in S1.
  assert (LP := um_pos s l U ltac:(lia)). assert (SP := num_pos _ SC). assert (GL := near_um s l U ltac:(lia)).
  assert (S2 := acc_mul _ _ _ _ _ _ _ _ _ S1 GL ltac:(unfold u; lra) ltac:(lia) GF FP LP ltac:(cbn; lia)).
  assert (I3 : INR 3 = 3) by (rewrite INR_IZR_INZ; reflexivity). rewrite I3 in S2.
  assert (G2 := rng_mul _ _ _ _ GF (proj2 (proj2 GL))). assert (P2 : 0 < ff * (IZR l * num_val (unit s))) by now apply Rmult_lt_0_compat.
  assert (S3 := acc_mul _ _ _ _ _ _ _ _ _ S2 (near_num _ SC) ltac:(unfold u; lra) ltac:(lia) G2 P2 SP ltac:(cbn; lia)).
  assert (I2 : INR 2 = 2) by (rewrite INR_IZR_INZ; reflexivity). rewrite I2 in S3.
  assert (G3 := rng_mul _ _ _ _ G2 (proj2 (proj2 (near_num _ SC)))). assert (P3 : 0 < ff * (IZR l * num_val (unit s)) * num_val sc) by now apply Rmult_lt_0_compat.
  assert (S4 := acc_div _ _ _ _ _ _ _ _ _ S3 near_thousand ltac:(unfold u; lra) (Nat.le_0_l 10) G3 P3 ltac:(lra) ltac:(cbn; lia)).
  eapply acc_le; [|exact S4]. cbn [INR]. unfold u. lra.
Qed.
Lemma acc_cap square atanf s p : accurate square (fun x => x * x) -> accurate atanf atan -> meant s p -> acc (300 * u) (cap square atanf s p) (formula s p) (whole s p).
Proof.
  intros SQ AT (U & H & M). assert (UP := u_pos). assert (I : INR 20 = 20) by (rewrite INR_IZR_INZ; reflexivity).
  destruct p as [area c|l d c o|l n f oc sc]; unfold cap, whole.
  - destruct M as [M1 M2]. assert (N := near_acc _ _ _ _ (near_overlap square s area c SQ U M1 M2) ltac:(lia)). rewrite I in N. eapply acc_le; [|exact N]. lra.
  - destruct M as (M1 & M2 & M3 & M4 & M5 & M6). assert (N := near_acc _ _ _ _ (near_sidewall s l d c o U M1 M2 M3 M4 M5 M6) ltac:(lia)). rewrite I in N. eapply acc_le; [|exact N]. lra.
  - destruct M as (M1 & M2 & M3 & M4 & M5). now apply acc_fringe.
Qed.
