(** Rounding errors of triangles and reference points. *)
From Coq Require Import ZArith Reals Lra Lia Psatz List String.
From Flocq Require Import Core.Core IEEE754.BinarySingleNaN.
From Verif Require Import FP_Model FP_Spec FP_Proofs FC_Spec FC_Proofs TG_Model TG_Spec.
Import ListNotations.
Local Open Scope R_scope.

Lemma fl_val (x : float) : fl (val x) = val x.
Proof. unfold fl. apply round_generic; [auto with typeclass_instances|apply generic_format_B2R]. Qed.
Lemma eta_tiny : eta <= / 10 ^ 100. Proof. apply ten_inv_le. lia. Qed.
Lemma ten_100 : / 10 ^ 100 <= / 1000000000000000000000000000000000000000000000000000000000000.
Proof. apply Rinv_le; [lra|]. rewrite ten_IZR. apply IZR_le. vm_compute. discriminate. Qed.
Lemma big200 x : Rabs x <= 1000000000000000000000000000000 -> Rabs x <= 10 ^ 200.
Proof. intros H. eapply Rle_trans; [exact H|]. rewrite ten_IZR. apply IZR_le. vm_compute. discriminate. Qed.

(** ** one operation at a time, for numbers that are given up to an error *)
Definition ap (x : float) (r e : R) : Prop := is_finite x = true /\ Rabs (val x - r) <= e.
Lemma ap_le x r e e' : e <= e' -> ap x r e -> ap x r e'. Proof. intros H [F A]. split; [exact F|lra]. Qed.
Lemma ap_eq x r r' e : r = r' -> ap x r e -> ap x r' e. Proof. now intros ->. Qed.
Lemma ap_sub x y r s d e b : ap x r d -> ap y s e -> Rabs (r - s) <= b -> d + e + b <= 1000000000000000000000000000000 ->
  ap (fsub x y) (r - s) (d + e + u * (d + e + b)).
Proof.
  intros [FX AX] [FY AY] B S. assert (T : Rabs (val x - val y) <= d + e + b).
  { replace (val x - val y) with ((val x - r) - (val y - s) + (r - s)) by ring. eapply Rle_trans; [apply Rabs_triang|]. apply Rplus_le_compat; [|exact B].
    unfold Rminus at 1. eapply Rle_trans; [apply Rabs_triang|]. rewrite Rabs_Ropp. lra. }
  destruct (sub_fits x y FX FY (big200 _ (Rle_trans _ _ _ T S))) as [F V]. split; [exact F|]. rewrite V. assert (E := sub_plus x y). assert (UP := u_pos).
  replace (fl (val x - val y) - (r - s)) with ((fl (val x - val y) - (val x - val y)) + ((val x - r) - (val y - s))) by ring.
  eapply Rle_trans; [apply Rabs_triang|]. assert (Rabs (val x - r - (val y - s)) <= d + e) by (unfold Rminus at 1; eapply Rle_trans; [apply Rabs_triang|]; rewrite Rabs_Ropp; lra).
  assert (u * Rabs (val x - val y) <= u * (d + e + b)) by (apply Rmult_le_compat_l; lra). lra.
Qed.
Lemma ap_opp x r e : ap x r e -> ap (fopp x) (- r) e.
Proof. intros [F A]. split; [unfold fopp; now rewrite is_finite_Bopp|]. unfold fopp. rewrite B2R_Bopp. replace (- val x - - r) with (- (val x - r)) by ring. now rewrite Rabs_Ropp. Qed.
Lemma ap_add x y r s d e b : ap x r d -> ap y s e -> Rabs (r + s) <= b -> d + e + b <= 1000000000000000000000000000000 ->
  ap (fadd x y) (r + s) (d + e + u * (d + e + b)).
Proof.
  intros [FX AX] [FY AY] B S. assert (T : Rabs (val x + val y) <= d + e + b).
  { replace (val x + val y) with ((val x - r) + (val y - s) + (r + s)) by ring. eapply Rle_trans; [apply Rabs_triang|]. apply Rplus_le_compat; [|exact B].
    eapply Rle_trans; [apply Rabs_triang|]. lra. }
  destruct (add_fits x y FX FY (big200 _ (Rle_trans _ _ _ T S))) as [F V]. split; [exact F|]. rewrite V. assert (E := fl_plus x y). assert (UP := u_pos).
  replace (fl (val x + val y) - (r + s)) with ((fl (val x + val y) - (val x + val y)) + ((val x - r) + (val y - s))) by ring.
  eapply Rle_trans; [apply Rabs_triang|]. assert (Rabs (val x - r + (val y - s)) <= d + e) by (eapply Rle_trans; [apply Rabs_triang|]; lra).
  assert (u * Rabs (val x + val y) <= u * (d + e + b)) by (apply Rmult_le_compat_l; lra). lra.
Qed.
Lemma ap_mul x y r s d e b c : ap x r d -> ap y s e -> Rabs r <= b -> Rabs s <= c -> (b + d) * (c + e) <= 1000000000000000000000000000000 ->
  ap (fmul x y) (r * s) (b * e + c * d + d * e + u * ((b + d) * (c + e)) + eta).
Proof.
  intros [FX AX] [FY AY] B C S. assert (D0 : 0 <= d) by (eapply Rle_trans; [apply Rabs_pos|exact AX]). assert (E0 : 0 <= e) by (eapply Rle_trans; [apply Rabs_pos|exact AY]).
  assert (B0 : 0 <= b) by (eapply Rle_trans; [apply Rabs_pos|exact B]). assert (C0 : 0 <= c) by (eapply Rle_trans; [apply Rabs_pos|exact C]).
  assert (VX : Rabs (val x) <= b + d) by (replace (val x) with (r + (val x - r)) by ring; eapply Rle_trans; [apply Rabs_triang|lra]).
  assert (VY : Rabs (val y) <= c + e) by (replace (val y) with (s + (val y - s)) by ring; eapply Rle_trans; [apply Rabs_triang|lra]).
  assert (T : Rabs (val x * val y) <= (b + d) * (c + e)) by (rewrite Rabs_mult; apply Rmult_le_compat; try apply Rabs_pos; assumption).
  destruct (mul_fits x y FX FY (big200 _ (Rle_trans _ _ _ T S))) as [F V]. split; [exact F|]. rewrite V. assert (E := fl_e (val x * val y)). assert (UP := u_pos).
  assert (X : Rabs (val x * val y - r * s) <= b * e + c * d + d * e).
  { replace (val x * val y - r * s) with (r * (val y - s) + s * (val x - r) + (val x - r) * (val y - s)) by ring.
    eapply Rle_trans; [apply Rabs_triang|]. apply Rplus_le_compat; [eapply Rle_trans; [apply Rabs_triang|]; apply Rplus_le_compat|]; rewrite Rabs_mult; apply Rmult_le_compat; try apply Rabs_pos; assumption. }
  replace (fl (val x * val y) - r * s) with ((fl (val x * val y) - val x * val y) + (val x * val y - r * s)) by ring.
  eapply Rle_trans; [apply Rabs_triang|]. assert (u * Rabs (val x * val y) <= u * ((b + d) * (c + e))) by (apply Rmult_le_compat_l; lra). lra.
Qed.

(** ** differences of coordinates, and products of them *)
Definition coord (dbu X : float) (n : Z) : Prop := is_finite X = true /\ val X = fl (IZR n * val dbu).
Lemma coord_grid dbu n : unit_ok dbu -> near_origin n -> coord dbu (fmul (of_int n) dbu) n.
Proof.
  intros (F & D1 & D2) N. unfold near_origin in N. destruct (of_int_ok n ltac:(lia)) as [FN VN].
  assert (B : Rabs (val (of_int n) * val dbu) <= 10 ^ 200).
  { rewrite VN, Rabs_mult, (Rabs_pos_eq (val dbu)) by lra. rewrite abs_int. assert (IZR (Z.abs n) <= 4194304) by (apply IZR_le; lia). assert (0 <= IZR (Z.abs n)) by (apply IZR_le; lia).
    apply Rle_trans with (4194304 * 1); [apply Rmult_le_compat; lra|]. rewrite ten_IZR, Rmult_1_r. apply IZR_le. vm_compute. discriminate. }
  destruct (mul_fits (of_int n) dbu FN F B) as [G V]. rewrite VN in V. now split.
Qed.
Lemma coord_ap dbu X n : unit_ok dbu -> near_origin n -> coord dbu X n -> ap X (IZR n * val dbu) (val dbu * / 1073741824).
Proof.
  intros (F & D1 & D2) N [G V]. split; [exact G|]. rewrite V. eapply Rle_trans; [apply fl_e|]. rewrite Rabs_mult, (Rabs_pos_eq (val dbu)) by lra.
  rewrite abs_int. unfold near_origin in N. assert (A : IZR (Z.abs n) <= 4194304) by (apply IZR_le; lia). assert (A0 : 0 <= IZR (Z.abs n)) by (apply IZR_le; lia).
  assert (E := eta_tiny). assert (E2 := ten_100). assert (IZR (Z.abs n) * val dbu <= 4194304 * val dbu) by (apply Rmult_le_compat_r; lra). unfold u. lra.
Qed.
Lemma diff_ap dbu X Y m n : unit_ok dbu -> near_origin m -> near_origin n -> coord dbu X m -> coord dbu Y n ->
  ap (fsub X Y) (IZR (m - n) * val dbu) (val dbu * / 268435456).
Proof.
  intros U M N CX CY. assert (U' := U). destruct U' as (F & D1 & D2). rewrite minus_IZR. replace ((IZR m - IZR n) * val dbu) with (IZR m * val dbu - IZR n * val dbu) by ring.
  eapply ap_le; [|apply (ap_sub _ _ _ _ _ _ (8388608 * val dbu) (coord_ap _ _ _ U M CX) (coord_ap _ _ _ U N CY))]; [unfold u; lra| |lra].
  replace (IZR m * val dbu - IZR n * val dbu) with (IZR (m - n) * val dbu) by (rewrite minus_IZR; ring). rewrite Rabs_mult, (Rabs_pos_eq (val dbu)) by lra.
  apply Rmult_le_compat_r; [lra|]. rewrite abs_int. apply IZR_le. unfold near_origin in *. lia.
Qed.
Lemma diff_bound m n D : near_origin m -> near_origin n -> 0 <= D -> Rabs (IZR (m - n) * D) <= 8388608 * D.
Proof.
  intros M N H. rewrite Rabs_mult, (Rabs_pos_eq D) by exact H. apply Rmult_le_compat_r; [exact H|]. rewrite abs_int. apply IZR_le. unfold near_origin in *. lia.
Qed.
Lemma prod_ap dbu X Y m n m' n' : unit_ok dbu -> near_origin m -> near_origin n -> near_origin m' -> near_origin n' ->
  ap X (IZR (m - n) * val dbu) (val dbu * / 268435456) -> ap Y (IZR (m' - n') * val dbu) (val dbu * / 268435456) ->
  ap (fmul X Y) (IZR ((m - n) * (m' - n')) * (val dbu * val dbu)) (val dbu * val dbu * (1 / 10)).
Proof.
  intros U M N M' N' AX AY. destruct U as (F & D1 & D2). set (D := val dbu) in *. assert (DD : 0 < D * D) by (apply Rmult_lt_0_compat; lra).
  assert (DL : / 1000000000000000000 <= D * D) by (apply Rle_trans with (/ 1000000000 * / 1000000000); [lra|apply Rmult_le_compat; lra]). assert (DU : D * D <= 1) by (apply Rle_trans with (1 * 1); [apply Rmult_le_compat; lra|lra]).
  rewrite mult_IZR. replace (IZR (m - n) * IZR (m' - n') * (D * D)) with (IZR (m - n) * D * (IZR (m' - n') * D)) by ring.
  eapply ap_le; [|apply (ap_mul _ _ _ _ _ _ (8388608 * D) (8388608 * D) AX AY); try (apply diff_bound; assumption || lra)].
  - replace (8388608 * D * (D * / 268435456) + 8388608 * D * (D * / 268435456) + D * / 268435456 * (D * / 268435456) + u * ((8388608 * D + D * / 268435456) * (8388608 * D + D * / 268435456)) + eta)
      with ((D * D) * (16777216 * / 268435456 + / 268435456 * / 268435456 + u * ((8388608 + / 268435456) * (8388608 + / 268435456))) + eta) by ring.
    assert (E := eta_tiny). assert (E2 := ten_100). unfold u. lra.
  - replace ((8388608 * D + D * / 268435456) * (8388608 * D + D * / 268435456)) with ((D * D) * ((8388608 + / 268435456) * (8388608 + / 268435456))) by ring. lra.
Qed.

(** ** the vector product *)
Definition cross (a0 b0 a1 b1 a2 b2 : Z) : Z := ((a1 - a0) * (b2 - b0) - (b1 - b0) * (a2 - a0))%Z.
Lemma prod_bound m n m' n' : near_origin m -> near_origin n -> near_origin m' -> near_origin n' -> (Z.abs ((m - n) * (m' - n')) <= 70368744177664)%Z.
Proof. unfold near_origin. intros M N M' N'. rewrite Z.abs_mul. change 70368744177664%Z with (8388608 * 8388608)%Z. apply Z.mul_le_mono_nonneg; lia. Qed.
Section Cross.
Variables (dbu : float) (A0 B0 A1 B1 A2 B2 : float) (a0 b0 a1 b1 a2 b2 : Z).
Hypothesis U : unit_ok dbu.
Hypothesis N : near_origin a0 /\ near_origin b0 /\ near_origin a1 /\ near_origin b1 /\ near_origin a2 /\ near_origin b2.
Hypothesis C : coord dbu A0 a0 /\ coord dbu B0 b0 /\ coord dbu A1 a1 /\ coord dbu B1 b1 /\ coord dbu A2 a2 /\ coord dbu B2 b2.
Let DD := val dbu * val dbu.
Lemma DD_range : / 1000000000000000000 <= DD <= 1.
Proof. destruct U as (F & D1 & D2). unfold DD. split; [apply Rle_trans with (/ 1000000000 * / 1000000000); [lra|apply Rmult_le_compat; lra]|apply Rle_trans with (1 * 1); [apply Rmult_le_compat; lra|lra]]. Qed.
Lemma cross_ap : ap (fsub (fmul (fsub A1 A0) (fsub B2 B0)) (fmul (fsub B1 B0) (fsub A2 A0))) (IZR (cross a0 b0 a1 b1 a2 b2) * DD) (DD / 4).
Proof.
  destruct N as (N1 & N2 & N3 & N4 & N5 & N6), C as (C1 & C2 & C3 & C4 & C5 & C6). assert (R1 := DD_range).
  assert (P := prod_ap dbu _ _ a1 a0 b2 b0 U N3 N1 N6 N2 (diff_ap _ _ _ _ _ U N3 N1 C3 C1) (diff_ap _ _ _ _ _ U N6 N2 C6 C2)).
  assert (Q := prod_ap dbu _ _ b1 b0 a2 a0 U N4 N2 N5 N1 (diff_ap _ _ _ _ _ U N4 N2 C4 C2) (diff_ap _ _ _ _ _ U N5 N1 C5 C1)).
  fold DD in P, Q. unfold cross. rewrite minus_IZR. rewrite Rmult_minus_distr_r.
  eapply ap_le; [|apply (ap_sub _ _ _ _ _ _ (140737488355328 * DD) P Q)]; [unfold u; lra| |lra].
  rewrite <- Rmult_minus_distr_r, <- minus_IZR, Rabs_mult, (Rabs_pos_eq DD) by lra. apply Rmult_le_compat_r; [lra|]. rewrite abs_int. apply IZR_le.
  assert (X := prod_bound a1 a0 b2 b0 N3 N1 N6 N2). assert (Y := prod_bound b1 b0 a2 a0 N4 N2 N5 N1). lia.
Qed.
Lemma cross_ap' : ap (fadd (fmul (fopp (fsub A1 A0)) (fsub B2 B0)) (fmul (fsub B1 B0) (fsub A2 A0))) (IZR (- cross a0 b0 a1 b1 a2 b2) * DD) (DD / 4).
Proof.
  destruct N as (N1 & N2 & N3 & N4 & N5 & N6), C as (C1 & C2 & C3 & C4 & C5 & C6). assert (R1 := DD_range).
  assert (O := ap_opp _ _ _ (diff_ap _ _ _ _ _ U N3 N1 C3 C1)).
  assert (E : - (IZR (a1 - a0) * val dbu) = IZR (a0 - a1) * val dbu) by (rewrite !minus_IZR; ring). rewrite E in O.
  assert (P := prod_ap dbu _ _ a0 a1 b2 b0 U N1 N3 N6 N2 O (diff_ap _ _ _ _ _ U N6 N2 C6 C2)).
  assert (Q := prod_ap dbu _ _ b1 b0 a2 a0 U N4 N2 N5 N1 (diff_ap _ _ _ _ _ U N4 N2 C4 C2) (diff_ap _ _ _ _ _ U N5 N1 C5 C1)).
  fold DD in P, Q. replace (- cross a0 b0 a1 b1 a2 b2)%Z with ((a0 - a1) * (b2 - b0) + (b1 - b0) * (a2 - a0))%Z by (unfold cross; ring). rewrite plus_IZR, Rmult_plus_distr_r.
  eapply ap_le; [|apply (ap_add _ _ _ _ _ _ (140737488355328 * DD) P Q)]; [unfold u; lra| |lra].
  rewrite <- Rmult_plus_distr_r, <- plus_IZR, Rabs_mult, (Rabs_pos_eq DD) by lra. apply Rmult_le_compat_r; [lra|]. rewrite abs_int. apply IZR_le.
  assert (X := prod_bound a0 a1 b2 b0 N1 N3 N6 N2). assert (Y := prod_bound b1 b0 a2 a0 N4 N2 N5 N1). lia.
Qed.
Lemma cross_bound : (Z.abs (cross a0 b0 a1 b1 a2 b2) <= 140737488355328)%Z.
Proof.
  destruct N as (N1 & N2 & N3 & N4 & N5 & N6). unfold cross. assert (X := prod_bound a1 a0 b2 b0 N3 N1 N6 N2). assert (Y := prod_bound b1 b0 a2 a0 N4 N2 N5 N1). lia.
Qed.
End Cross.
(** a number that is a whole multiple of the square of the unit up to a quarter has its sign *)
Definition sized (c : float) (s : R) : Prop := is_finite c = true /\ (s = 1 \/ s = -1) /\ 0 < s * val c /\ / 10 ^ 20 <= Rabs (val c) <= 10 ^ 20.
Lemma ap_sized dbu c k : unit_ok dbu -> ap c (IZR k * (val dbu * val dbu)) (val dbu * val dbu / 4) -> (0 < Z.abs k <= 140737488355328)%Z -> sized c (IZR (Z.sgn k)).
Proof.
  intros U [F A] K. assert (R1 := DD_range dbu U). set (DD := val dbu * val dbu) in *. apply abs_le in A.
  assert (L : / 10 ^ 20 <= 3 / 4 * DD). { apply Rle_trans with (/ 10 ^ 19); [apply ten_inv_le; lia|]. apply Rle_trans with (3 / 4 * / 1000000000000000000); [|lra]. rewrite ten_IZR. change (10 ^ Z.of_nat 19)%Z with 10000000000000000000%Z. lra. }
  assert (H : 140737488355329 <= 10 ^ 20) by (rewrite ten_IZR; apply IZR_le; vm_compute; discriminate).
  split; [exact F|]. destruct (Z.lt_trichotomy k 0) as [L0|[E|G]]; [|lia|].
  - rewrite Z.sgn_neg by exact L0. assert (X : IZR k <= -1) by (apply IZR_le; lia). assert (Y : -140737488355328 <= IZR k) by (apply IZR_le; lia).
    assert (IZR k * DD <= -1 * DD) by (apply Rmult_le_compat_r; lra). assert (-140737488355328 * DD <= IZR k * DD) by (apply Rmult_le_compat_r; lra).
    split; [right; reflexivity|]. rewrite Rabs_left by lra. split; [lra|]. split; lra.
  - rewrite Z.sgn_pos by exact G. assert (X : 1 <= IZR k) by (apply IZR_le; lia). assert (Y : IZR k <= 140737488355328) by (apply IZR_le; lia).
    assert (1 * DD <= IZR k * DD) by (apply Rmult_le_compat_r; lra). assert (IZR k * DD <= 140737488355328 * DD) by (apply Rmult_le_compat_r; lra).
    split; [left; reflexivity|]. rewrite Rabs_right by lra. split; [lra|]. split; lra.
Qed.

(** ** the length of the vector product *)
Lemma fsqrt_ok x : is_finite x = true -> 0 < val x -> is_finite (fsqrt x) = true /\ val (fsqrt x) = fl (sqrt (val x)).
Proof.
  intros F P. destruct (Bsqrt_correct prec emax Hprec Hmax mode_NE x) as (V & G & _). unfold fsqrt. split; [|exact V]. rewrite G.
  destruct x as [s|s| |s m e H]; try discriminate F; [reflexivity|]. destruct s; [|reflexivity]. exfalso. cbn in P. unfold F2R in P. cbn in P.
  assert (0 < bpow radix2 e) by apply bpow_gt_0. assert (IZR (Z.neg m) < 0) by (apply IZR_lt; lia). nra.
Qed.
Definition zero (x : float) : Prop := is_finite x = true /\ val x = 0.
Lemma square_zero square x : squares square -> zero x -> zero (square x).
Proof. intros S [F Z]. destruct (S x F (or_introl Z)) as [G A]. rewrite Z in A. split; [exact G|]. rewrite Rmult_0_l, Rmult_0_r, Rminus_0_r in A. apply abs_le in A. lra. Qed.
Lemma add_zero_l x y : zero x -> is_finite y = true -> Rabs (val y) <= 10 ^ 200 -> is_finite (fadd x y) = true /\ val (fadd x y) = val y.
Proof. intros [F Z] G B. destruct (add_fits x y F G) as [H V]; [now rewrite Z, Rplus_0_l|]. split; [exact H|]. now rewrite V, Z, Rplus_0_l, fl_val. Qed.
Lemma add_zero_r x y : zero y -> is_finite x = true -> Rabs (val x) <= 10 ^ 200 -> is_finite (fadd x y) = true /\ val (fadd x y) = val x.
Proof. intros [F Z] G B. destruct (add_fits x y G F) as [H V]; [now rewrite Z, Rplus_0_r|]. split; [exact H|]. now rewrite V, Z, Rplus_0_r, fl_val. Qed.
Lemma mul_zero_l x y : zero x -> is_finite y = true -> zero (fmul x y).
Proof. intros [F Z] G. destruct (mul_fits x y F G) as [H V]; [rewrite Z, Rmult_0_l, Rabs_R0; apply Rlt_le, ten_pos|]. split; [exact H|]. now rewrite V, Z, Rmult_0_l, fl_0. Qed.
Lemma mul_zero_r x y : zero y -> is_finite x = true -> zero (fmul x y).
Proof. intros [F Z] G. destruct (mul_fits x y G F) as [H V]; [rewrite Z, Rmult_0_r, Rabs_R0; apply Rlt_le, ten_pos|]. split; [exact H|]. now rewrite V, Z, Rmult_0_r, fl_0. Qed.
Lemma div_zero x y : zero x -> val y <> 0 -> zero (fdiv x y).
Proof. intros [F Z] N. destruct (div_fits x y F N) as [H V]; [unfold Rdiv; rewrite Z, Rmult_0_l, Rabs_R0; apply Rlt_le, ten_pos|]. split; [exact H|]. unfold Rdiv in V. now rewrite V, Z, Rmult_0_l, fl_0. Qed.
Lemma sub_zero x y : zero x -> zero y -> zero (fsub x y).
Proof. intros [F Z] [G Y]. destruct (sub_fits x y F G) as [H V]; [rewrite Z, Y, Rminus_0_r, Rabs_R0; apply Rlt_le, ten_pos|]. split; [exact H|]. now rewrite V, Z, Y, Rminus_0_r, fl_0. Qed.
Lemma add_zero x y : zero x -> zero y -> zero (fadd x y).
Proof. intros [F Z] [G Y]. destruct (add_fits x y F G) as [H V]; [rewrite Z, Y, Rplus_0_r, Rabs_R0; apply Rlt_le, ten_pos|]. split; [exact H|]. now rewrite V, Z, Y, Rplus_0_r, fl_0. Qed.
Lemma opp_zero x : zero x -> zero (fopp x).
Proof. intros [F Z]. split; [unfold fopp; now rewrite is_finite_Bopp|]. unfold fopp. rewrite B2R_Bopp, Z. ring. Qed.
Lemma sub_same x y : is_finite x = true -> is_finite y = true -> val x = val y -> zero (fsub x y).
Proof. intros F G E. destruct (sub_fits x y F G) as [H V]; [rewrite E, Rminus_diag_eq, Rabs_R0 by reflexivity; apply Rlt_le, ten_pos|]. split; [exact H|]. now rewrite V, E, Rminus_diag_eq, fl_0. Qed.
Lemma root square c s S : squares square -> sized c s -> is_finite S = true -> val S = val (square c) ->
  is_finite (fsqrt S) = true /\ Rabs (val (fsqrt S) - Rabs (val c)) <= Rabs (val c) * / 10000000000000.
Proof.
  intros SQ (F & SG & P & B) FS VS. assert (UP := u_pos).
  assert (R1 : / 10 ^ 60 <= Rabs (val c) <= 10 ^ 60) by (split; [eapply Rle_trans; [|apply B]; apply ten_inv_le; lia|eapply Rle_trans; [apply B|apply ten_le; lia]]).
  destruct (SQ c F (or_intror R1)) as [FQ A]. rewrite <- VS in A. change half_ulp with u in A. apply abs_le in A.
  assert (C0 : 0 < Rabs (val c)) by (eapply Rlt_le_trans; [apply Rinv_0_lt_compat, (ten_pos 20)|apply B]). set (a := Rabs (val c)) in *.
  assert (E : val c * val c = a * a) by (unfold a; destruct (Rcase_abs (val c)); [rewrite Rabs_left by lra|rewrite Rabs_right by lra]; ring). rewrite E in A.
  assert (AA : 0 < a * a) by (apply Rmult_lt_0_compat; exact C0). assert (US : u <= / 9000000000000000) by (unfold u; lra).
  assert (SP : 0 < val S) by nra. destruct (fsqrt_ok S FS SP) as [G V]. split; [exact G|].
  assert (Lo : a * (1 - 2 * u) <= sqrt (val S)).
  { rewrite <- (sqrt_square (a * (1 - 2 * u))) by (apply Rmult_le_pos; lra). apply sqrt_le_1; [apply Rle_0_sqr|lra|]. replace (a * (1 - 2 * u) * (a * (1 - 2 * u))) with (a * a * (1 - 4 * u + 4 * (u * u))) by ring. assert (u * u <= u * (/ 4)) by (apply Rmult_le_compat_l; lra). nra. }
  assert (Hi : sqrt (val S) <= a * (1 + 2 * u)).
  { rewrite <- (sqrt_square (a * (1 + 2 * u))) by (apply Rmult_le_pos; lra). apply sqrt_le_1; [lra|apply Rle_0_sqr|]. replace (a * (1 + 2 * u) * (a * (1 + 2 * u))) with (a * a * (1 + 4 * u + 4 * (u * u))) by ring. assert (0 <= u * u) by (apply Rmult_le_pos; lra). nra. }
  rewrite V. assert (X := fl_e (sqrt (val S))). rewrite (Rabs_pos_eq (sqrt (val S))) in X by apply sqrt_pos. apply abs_le in X.
  assert (ET : eta <= a * / 10 ^ 17).
  { apply Rle_trans with (/ 10 ^ 20 * / 10 ^ 17); [unfold eta; rewrite <- Rinv_mult, <- pow_add; apply ten_inv_le; lia|]. apply Rmult_le_compat_r; [apply Rlt_le, Rinv_0_lt_compat, ten_pos|apply B]. }
  assert (T17 : / 10 ^ 17 <= / 10000000000000000) by (apply Rinv_le; [lra|]; rewrite ten_IZR; apply IZR_le; vm_compute; discriminate).
  assert (EA : a * / 10 ^ 17 <= a * / 10000000000000000) by (apply Rmult_le_compat_l; lra).
  assert (UA : u * sqrt (val S) <= 2 * (a * / 9000000000000000)).
  { apply Rle_trans with (/ 9000000000000000 * (a * (1 + 2 * u))); [apply Rmult_le_compat; [lra|apply sqrt_pos|exact US|exact Hi]|]. nra. }
  assert (a * u <= a * / 9000000000000000) by (apply Rmult_le_compat_l; lra).
  apply abs_le. split; lra.
Qed.
Lemma quot square c s S : squares square -> sized c s -> is_finite S = true -> val S = val (square c) ->
  ap (fdiv c (fsqrt S)) s (/ 1000000000000) /\ val (fsqrt S) <> 0 /\ is_finite (fsqrt S) = true.
Proof.
  intros SQ SZ FS VS. destruct (root square c s S SQ SZ FS VS) as [G A]. destruct SZ as (F & SG & P & B).
  assert (C0 : 0 < Rabs (val c)) by (eapply Rlt_le_trans; [apply Rinv_0_lt_compat, (ten_pos 20)|apply B]). set (a := Rabs (val c)) in *. set (r := val (fsqrt S)) in *. apply abs_le in A.
  assert (R0 : 0 < r) by lra. assert (VC : val c = s * a).
  { unfold a. destruct SG as [-> | ->]; [rewrite Rabs_right by lra|rewrite Rabs_left by lra]; ring. }
  assert (Q : Rabs (a / r - 1) <= / 5000000000000).
  { replace (a / r - 1) with ((a - r) / r) by (field; lra). unfold Rdiv. rewrite Rabs_mult, (Rabs_pos_eq (/ r)) by (apply Rlt_le, Rinv_0_lt_compat; exact R0).
    apply Rmult_le_reg_r with r; [exact R0|]. rewrite Rmult_assoc, Rinv_l, Rmult_1_r by lra. apply abs_le. split; lra. }
  apply abs_le in Q. assert (SA : Rabs s = 1) by (destruct SG as [-> | ->]; [apply Rabs_R1|rewrite Rabs_left; lra]).
  assert (QB : Rabs (val c / r) <= 2). { rewrite VC. unfold Rdiv. rewrite Rmult_assoc, Rabs_mult, SA, Rmult_1_l. apply abs_le. unfold Rdiv in Q. lra. }
  destruct (div_fits c (fsqrt S) F) as [H V]; [fold r; lra|fold r; apply big200; lra|]. split; [|split; [fold r; lra|exact G]]. split; [exact H|]. rewrite V. fold r.
  assert (X := fl_e (val c / r)). assert (E := eta_tiny). assert (E2 := ten_100).
  replace (fl (val c / r) - s) with ((fl (val c / r) - val c / r) + (val c / r - s)) by ring. eapply Rle_trans; [apply Rabs_triang|].
  assert (Y : Rabs (val c / r - s) <= / 5000000000000). { replace (val c / r - s) with (s * (a / r - 1)) by (rewrite VC; field; lra). rewrite Rabs_mult, SA, Rmult_1_l. apply abs_le. exact Q. }
  unfold u in X. lra.
Qed.
(** ** reference points *)
Definition ref square (p0 : point) (vx vy vz : float) : option point :=
  let vp_abs := fsqrt (fadd (fadd (square vx) (square vy)) (square vz)) in
  if Beqb vp_abs (of_int 0) then None
  else Some (Pt (fadd (px p0) (fdiv vx vp_abs)) (fadd (py p0) (fdiv vy vp_abs)) (fadd (pz p0) (fdiv vz vp_abs))).
Definition place_ok (x : float) : Prop := is_finite x = true /\ Rabs (val x) <= 4194305.
Lemma moved P q s : place_ok P -> ap q s (/ 1000000000000) -> s = 1 \/ s = -1 -> about (fadd P q) (val P + s).
Proof.
  intros [F B] Q SG. assert (AP : ap P (val P) 0) by (split; [exact F|rewrite Rminus_diag_eq, Rabs_R0 by reflexivity; lra]).
  destruct (ap_add P q (val P) s 0 (/ 1000000000000) 4194306 AP Q) as [FA A]; [|lra|].
  - apply abs_le in B. apply abs_le. destruct SG; subst; lra.
  - split; [exact FA|]. unfold u in A. lra.
Qed.
Lemma stays P q : place_ok P -> zero q -> about (fadd P q) (val P + 0).
Proof.
  intros [F B] Q. destruct (add_zero_r P q Q F) as [FA V]; [apply big200; lra|]. split; [exact FA|]. rewrite V, Rplus_0_r, Rminus_diag_eq, Rabs_R0 by reflexivity. lra.
Qed.
Lemma eq_zero x : is_finite x = true -> val x <> 0 -> Beqb x (of_int 0) = false.
Proof.
  intros F N. destruct (of_int_ok 0 ltac:(lia)) as [F0 V0]. rewrite (Beqb_correct prec emax x (of_int 0) F F0). rewrite V0. apply Req_bool_false. exact N.
Qed.
Lemma square_fits square c s : squares square -> sized c s -> is_finite (square c) = true /\ Rabs (val (square c)) <= 10 ^ 200.
Proof.
  intros SQ (F & SG & P & B). assert (R1 : / 10 ^ 60 <= Rabs (val c) <= 10 ^ 60) by (split; [eapply Rle_trans; [|apply B]; apply ten_inv_le; lia|eapply Rle_trans; [apply B|apply ten_le; lia]]).
  destruct (SQ c F (or_intror R1)) as [FQ A]. split; [exact FQ|]. change half_ulp with u in A. assert (CC : Rabs (val c * val c) <= 10 ^ 40).
  { rewrite Rabs_mult. change 40%nat with (20 + 20)%nat. rewrite pow_add. apply Rmult_le_compat; try apply Rabs_pos; apply B. }
  rewrite Rabs_pos_eq in CC by apply Rle_0_sqr. assert (P0 : 0 <= val c * val c) by apply Rle_0_sqr. apply Rle_trans with (2 * 10 ^ 40).
  - apply abs_le in A. apply abs_le. assert (u * (val c * val c) <= / 4 * (val c * val c)) by (apply Rmult_le_compat_r; [exact P0|unfold u; lra]). lra.
  - rewrite !ten_IZR, <- mult_IZR. apply IZR_le. vm_compute. discriminate.
Qed.
Lemma ref_z square p vx vy vz s : squares square -> place_ok (px p) -> place_ok (py p) -> place_ok (pz p) -> zero vx -> zero vy -> sized vz s ->
  exists rp, ref square p vx vy vz = Some rp /\ about (px rp) (val (px p) + 0) /\ about (py rp) (val (py p) + 0) /\
    about (pz rp) (val (pz p) + s).
Proof.
  intros SQ X Y Z VX VY VZ. destruct (square_fits square vz s SQ VZ) as [FQ BQ]. assert (Z1 := add_zero _ _ (square_zero _ _ SQ VX) (square_zero _ _ SQ VY)).
  destruct (add_zero_l _ _ Z1 FQ BQ) as [FS VS]. destruct (quot square vz s _ SQ VZ FS VS) as (Q & N & F). unfold ref. rewrite (eq_zero _ F N). eexists. split; [reflexivity|]. cbn [px py pz].
  destruct VZ as (_ & SG & _). split; [|split].
  - apply stays; [exact X|now apply div_zero].
  - apply stays; [exact Y|now apply div_zero].
  - now apply moved.
Qed.
Lemma ref_y square p vx vy vz s : squares square -> place_ok (px p) -> place_ok (py p) -> place_ok (pz p) -> zero vx -> sized vy s -> zero vz ->
  exists rp, ref square p vx vy vz = Some rp /\ about (px rp) (val (px p) + 0) /\ about (py rp) (val (py p) + s) /\
    about (pz rp) (val (pz p) + 0).
Proof.
  intros SQ X Y Z VX VY VZ. destruct (square_fits square vy s SQ VY) as [FQ BQ]. destruct (add_zero_l _ _ (square_zero _ _ SQ VX) FQ BQ) as [F1 V1].
  assert (B1 : Rabs (val (fadd (square vx) (square vy))) <= 10 ^ 200) by (rewrite V1; exact BQ). destruct (add_zero_r _ _ (square_zero _ _ SQ VZ) F1 B1) as [FS VS]. rewrite V1 in VS.
  destruct (quot square vy s _ SQ VY FS VS) as (Q & N & F). unfold ref. rewrite (eq_zero _ F N). eexists. split; [reflexivity|]. cbn [px py pz].
  destruct VY as (_ & SG & _). split; [|split].
  - apply stays; [exact X|now apply div_zero].
  - now apply moved.
  - apply stays; [exact Z|now apply div_zero].
Qed.
Lemma ref_x square p vx vy vz s : squares square -> place_ok (px p) -> place_ok (py p) -> place_ok (pz p) -> sized vx s -> zero vy -> zero vz ->
  exists rp, ref square p vx vy vz = Some rp /\ about (px rp) (val (px p) + s) /\ about (py rp) (val (py p) + 0) /\
    about (pz rp) (val (pz p) + 0).
Proof.
  intros SQ X Y Z VX VY VZ. destruct (square_fits square vx s SQ VX) as [FQ BQ]. destruct (add_zero_r _ _ (square_zero _ _ SQ VY) FQ BQ) as [F1 V1].
  assert (B1 : Rabs (val (fadd (square vx) (square vy))) <= 10 ^ 200) by (rewrite V1; exact BQ). destruct (add_zero_r _ _ (square_zero _ _ SQ VZ) F1 B1) as [FS VS]. rewrite V1 in VS.
  destruct (quot square vx s _ SQ VX FS VS) as (Q & N & F). unfold ref. rewrite (eq_zero _ F N). eexists. split; [reflexivity|]. cbn [px py pz].
  destruct VX as (_ & SG & _). split; [|split].
  - now apply moved.
  - apply stays; [exact Y|now apply div_zero].
  - apply stays; [exact Z|now apply div_zero].
Qed.

(** ** whole numbers *)
Definition isz (x : float) (n : Z) : Prop := is_finite x = true /\ val x = IZR n.
Lemma small200 n : (Z.abs n < 2 ^ 53)%Z -> Rabs (IZR n) <= 10 ^ 200.
Proof. intros H. rewrite abs_int, ten_IZR. apply IZR_le. apply Z.le_trans with (2 ^ 53)%Z; [lia|]. vm_compute. discriminate. Qed.
Lemma isz_int n : (Z.abs n < 2 ^ 53)%Z -> isz (of_int n) n. Proof. apply of_int_ok. Qed.
Lemma isz_add x y m n : isz x m -> isz y n -> (Z.abs (m + n) < 2 ^ 53)%Z -> isz (fadd x y) (m + n).
Proof. intros [F V] [G W] H. destruct (add_fits x y F G) as [A B]; [rewrite V, W, <- plus_IZR; now apply small200|]. split; [exact A|]. rewrite B, V, W, <- plus_IZR. now apply int_format. Qed.
Lemma isz_sub x y m n : isz x m -> isz y n -> (Z.abs (m - n) < 2 ^ 53)%Z -> isz (fsub x y) (m - n).
Proof. intros [F V] [G W] H. destruct (sub_fits x y F G) as [A B]; [rewrite V, W, <- minus_IZR; now apply small200|]. split; [exact A|]. rewrite B, V, W, <- minus_IZR. now apply int_format. Qed.
Lemma isz_mul x y m n : isz x m -> isz y n -> (Z.abs (m * n) < 2 ^ 53)%Z -> isz (fmul x y) (m * n).
Proof. intros [F V] [G W] H. destruct (mul_fits x y F G) as [A B]; [rewrite V, W, <- mult_IZR; now apply small200|]. split; [exact A|]. rewrite B, V, W, <- mult_IZR. now apply int_format. Qed.
Lemma isz_div x y m n q : isz x m -> isz y n -> n <> 0%Z -> m = (q * n)%Z -> (Z.abs q < 2 ^ 53)%Z -> isz (fdiv x y) q.
Proof.
  intros [F V] [G W] N E H. assert (N' : IZR n <> 0) by now apply not_0_IZR. assert (D : val x / val y = IZR q) by (rewrite V, W, E, mult_IZR; field; exact N').
  destruct (div_fits x y F) as [A B]; [now rewrite W|rewrite D; now apply small200|]. split; [exact A|]. rewrite B, D. now apply int_format.
Qed.
Lemma isz_sqrt x n : isz x (n * n) -> (0 < n < 2 ^ 53)%Z -> isz (fsqrt x) n.
Proof.
  intros [F V] H. assert (P : 0 < IZR n) by (apply IZR_lt; lia). destruct (fsqrt_ok x F) as [G W]; [rewrite V, mult_IZR; now apply Rmult_lt_0_compat|]. split; [exact G|].
  rewrite W, V, mult_IZR, sqrt_square by lra. apply int_format. lia.
Qed.
Lemma isz_coord dbu x n : unit_ok dbu -> near_origin n -> isz x n -> coord dbu (fmul x dbu) n.
Proof.
  intros U N [F V]. assert (C := coord_grid dbu n U N). destruct U as (FD & D1 & D2). unfold near_origin in N.
  assert (B : Rabs (val x * val dbu) <= 10 ^ 200).
  { rewrite V, Rabs_mult, (Rabs_pos_eq (val dbu)) by lra. rewrite abs_int. assert (IZR (Z.abs n) <= 4194304) by (apply IZR_le; lia). assert (0 <= IZR (Z.abs n)) by (apply IZR_le; lia).
    apply Rle_trans with (4194304 * 1); [apply Rmult_le_compat; lra|]. rewrite ten_IZR, Rmult_1_r. apply IZR_le. vm_compute. discriminate. }
  destruct (mul_fits x dbu F FD B) as [G W]. rewrite V in W. now split.
Qed.
Lemma coord_place dbu X n : unit_ok dbu -> near_origin n -> coord dbu X n -> place_ok X.
Proof.
  intros U N C. destruct (coord_ap dbu X n U N C) as [F A]. split; [exact F|]. destruct U as (FD & D1 & D2). unfold near_origin in N.
  assert (B : Rabs (IZR n * val dbu) <= 4194304 * 1).
  { rewrite Rabs_mult, (Rabs_pos_eq (val dbu)) by lra. rewrite abs_int. assert (IZR (Z.abs n) <= 4194304) by (apply IZR_le; lia). assert (0 <= IZR (Z.abs n)) by (apply IZR_le; lia). apply Rmult_le_compat; lra. }
  apply abs_le in A. apply abs_le in B. apply abs_le. lra.
Qed.

(** ** the plane over an edge *)
Definition origin_x (e : edge) : Z := if (dx e =? 0)%Z then fst (p1 e) else 0%Z.
Definition origin_y (e : edge) : Z := if (dy e =? 0)%Z then snd (p1 e) else 0%Z.
Lemma sgn_abs n : (n = Z.sgn n * Z.abs n)%Z. Proof. rewrite Z.mul_comm. symmetry. apply Z.abs_sgn. Qed.
Lemma plane_ok e : edge_ok e ->
  isz (p0x (v_plane e)) (origin_x e) /\ isz (p0y (v_plane e)) (origin_y e) /\ isz (dex (v_plane e)) (Z.sgn (dx e)) /\ isz (dey (v_plane e)) (Z.sgn (dy e)).
Proof.
  intros (AX & [A1 A2] & [B1 B2]). unfold axis_parallel in AX. unfold near_origin in *. assert (DX : (Z.abs (dx e) <= 8388608)%Z) by (unfold dx; lia). assert (DY : (Z.abs (dy e) <= 8388608)%Z) by (unfold dy; lia).
  assert (Z0 : isz (of_int 0) 0) by (apply isz_int; lia). set (x1 := fst (p1 e)) in *. set (y1 := snd (p1 e)) in *.
  assert (X1 : isz (fsub (of_int x1) (of_int 0)) x1) by (rewrite <- (Z.sub_0_r x1) at 2; apply isz_sub; [apply isz_int; lia|exact Z0|lia]).
  assert (Y1 : isz (fsub (of_int y1) (of_int 0)) y1) by (rewrite <- (Z.sub_0_r y1) at 2; apply isz_sub; [apply isz_int; lia|exact Z0|lia]).
  assert (EL : isz (fsqrt (of_int (dx e * dx e + dy e * dy e))) (Z.abs (dx e) + Z.abs (dy e))).
  { apply isz_sqrt; [|lia]. assert (Q : (dx e * dx e + dy e * dy e = (Z.abs (dx e) + Z.abs (dy e)) * (Z.abs (dx e) + Z.abs (dy e)))%Z) by (destruct AX as [[-> _]|[_ ->]]; cbn [Z.abs]; nia).
    rewrite <- Q. apply isz_int. rewrite Q. assert (Z.abs (dx e) + Z.abs (dy e) <= 8388608)%Z by (destruct AX as [[-> _]|[_ ->]]; cbn [Z.abs]; lia). nia. }
  assert (NZ : (Z.abs (dx e) + Z.abs (dy e) <> 0)%Z) by lia.
  assert (EX : isz (fdiv (of_int (dx e)) (fsqrt (of_int (dx e * dx e + dy e * dy e)))) (Z.sgn (dx e))).
  { apply (isz_div _ _ (dx e) (Z.abs (dx e) + Z.abs (dy e))); [apply isz_int; lia|exact EL|exact NZ| |]; [|destruct (Z.sgn_spec (dx e)) as [[_ ->]|[[_ ->]|[_ ->]]]; lia].
    destruct AX as [[-> _]|[_ ->]]; [reflexivity|]. rewrite Z.add_0_r. apply sgn_abs. }
  assert (EY : isz (fdiv (of_int (dy e)) (fsqrt (of_int (dx e * dx e + dy e * dy e)))) (Z.sgn (dy e))).
  { apply (isz_div _ _ (dy e) (Z.abs (dx e) + Z.abs (dy e))); [apply isz_int; lia|exact EL|exact NZ| |]; [|destruct (Z.sgn_spec (dy e)) as [[_ ->]|[[_ ->]|[_ ->]]]; lia].
    destruct AX as [[-> _]|[_ ->]]; [|reflexivity]. cbn [Z.abs]. rewrite Z.add_0_l. apply sgn_abs. }
  assert (NY : isz (fdiv (of_int (- dx e)) (fsqrt (of_int (dx e * dx e + dy e * dy e)))) (- Z.sgn (dx e))).
  { apply (isz_div _ _ (- dx e) (Z.abs (dx e) + Z.abs (dy e))); [apply isz_int; lia|exact EL|exact NZ| |]; [|destruct (Z.sgn_spec (dx e)) as [[_ ->]|[[_ ->]|[_ ->]]]; lia].
    destruct AX as [[-> _]|[_ ->]]; [reflexivity|]. rewrite Z.add_0_r, Z.mul_opp_l. f_equal. apply sgn_abs. }
  cbv zeta delta [v_plane]. cbn [p0x p0y dex dey]. fold x1 y1.
  set (el := fsqrt (of_int (dx e * dx e + dy e * dy e))) in *.
  assert (SX : (Z.sgn (dx e) = 0 \/ Z.sgn (dx e) = 1 \/ Z.sgn (dx e) = -1)%Z) by (destruct (Z.sgn_spec (dx e)) as [[_ ->]|[[_ ->]|[_ ->]]]; lia).
  assert (SY : (Z.sgn (dy e) = 0 \/ Z.sgn (dy e) = 1 \/ Z.sgn (dy e) = -1)%Z) by (destruct (Z.sgn_spec (dy e)) as [[_ ->]|[[_ ->]|[_ ->]]]; lia).
  set (sx := Z.sgn (dx e)) in *. set (sy := Z.sgn (dy e)) in *.
  assert (PX : (sx = 0 /\ (sy = 1 \/ sy = -1) /\ origin_x e = x1 /\ origin_y e = 0 \/ sy = 0 /\ (sx = 1 \/ sx = -1) /\ origin_x e = 0 /\ origin_y e = y1)%Z).
  { unfold origin_x, origin_y, sx, sy in *. destruct AX as [[X Y]|[X Y]].
    - left. rewrite X, Z.eqb_refl. cbn [Z.sgn] in *. destruct (Z.eqb_spec (dy e) 0); [lia|]. rewrite <- Z.sgn_null_iff in Y. lia.
    - right. rewrite Y, Z.eqb_refl. cbn [Z.sgn] in *. destruct (Z.eqb_spec (dx e) 0); [lia|]. rewrite <- Z.sgn_null_iff in X. lia. }
  assert (S : isz (fadd (fmul (fdiv (of_int (dy e)) el) (fsub (of_int x1) (of_int 0))) (fmul (fdiv (of_int (- dx e)) el) (fsub (of_int y1) (of_int 0)))) (sy * x1 + - sx * y1)).
  { apply isz_add; [apply isz_mul; [exact EY|exact X1|]|apply isz_mul; [exact NY|exact Y1|]|]; destruct SX as [->|[->| ->]], SY as [->|[->| ->]]; lia. }
  split; [|split; [|split; [exact EX|exact EY]]].
  - replace (origin_x e) with (sy * (sy * x1 + - sx * y1) + 0)%Z by (destruct PX as [(-> & [-> | ->] & -> & _)|(-> & _ & -> & _)]; lia).
    apply isz_add; [apply isz_mul; [exact EY|exact S|]|exact Z0|]; destruct SX as [->|[->| ->]], SY as [->|[->| ->]]; lia.
  - replace (origin_y e) with (- sx * (sy * x1 + - sx * y1) + 0)%Z by (destruct PX as [(-> & _ & _ & ->)|(-> & [-> | ->] & _ & ->)]; lia).
    apply isz_add; [apply isz_mul; [exact NY|exact S|]|exact Z0|]; destruct SX as [->|[->| ->]], SY as [->|[->| ->]]; lia.
Qed.
(** where a point of the plane is *)
Definition at_x (e : edge) (x : Z) : Z := (origin_x e + Z.sgn (dx e) * x)%Z.
Definition at_y (e : edge) (x : Z) : Z := (origin_y e + Z.sgn (dy e) * x)%Z.
Lemma at_cases e : edge_ok e ->
  ((dy e = 0 /\ (Z.sgn (dx e) = 1 \/ Z.sgn (dx e) = -1) /\ (forall x, at_x e x = Z.sgn (dx e) * x) /\ (forall x, at_y e x = snd (p1 e))) \/
   (dx e = 0 /\ (Z.sgn (dy e) = 1 \/ Z.sgn (dy e) = -1) /\ (forall x, at_x e x = fst (p1 e)) /\ (forall x, at_y e x = Z.sgn (dy e) * x)))%Z.
Proof.
  intros (AX & _). unfold at_x, at_y, origin_x, origin_y. destruct AX as [[X Y]|[X Y]].
  - right. rewrite X, Z.eqb_refl. destruct (Z.eqb_spec (dy e) 0); [lia|]. split; [reflexivity|]. rewrite <- Z.sgn_null_iff in Y. split; [destruct (Z.sgn_spec (dy e)) as [[_ ->]|[[_ Q]|[_ ->]]]; lia|]. cbn [Z.sgn]. split; intros; lia.
  - left. rewrite Y, Z.eqb_refl. destruct (Z.eqb_spec (dx e) 0); [lia|]. split; [reflexivity|]. rewrite <- Z.sgn_null_iff in X. split; [destruct (Z.sgn_spec (dx e)) as [[_ ->]|[[_ Q]|[_ ->]]]; lia|]. cbn [Z.sgn]. split; intros; lia.
Qed.
Lemma at_near e x : edge_ok e -> near_origin x -> near_origin (at_x e x) /\ near_origin (at_y e x).
Proof.
  intros H N. assert (P := proj1 (proj2 H)). destruct P as [P1 P2]. unfold near_origin in *. destruct (at_cases e H) as [(_ & [S|S] & A & B)|(_ & [S|S] & A & B)]; rewrite A, B, S; lia.
Qed.
Lemma convert_coord dbu e p : unit_ok dbu -> edge_ok e -> p_near p ->
  coord dbu (px (convert_point dbu (v_plane e) p)) (at_x e (fst p)) /\ coord dbu (py (convert_point dbu (v_plane e) p)) (at_y e (fst p)) /\
  coord dbu (pz (convert_point dbu (v_plane e) p)) (snd p).
Proof.
  intros U E [N1 N2]. destruct (plane_ok e E) as (X & Y & DX & DY). destruct (at_near e (fst p) E N1) as [NX NY]. unfold near_origin in *. cbn [convert_point px py pz].
  assert (SX : (Z.sgn (dx e) = 0 \/ Z.sgn (dx e) = 1 \/ Z.sgn (dx e) = -1)%Z) by (destruct (Z.sgn_spec (dx e)) as [[_ ->]|[[_ ->]|[_ ->]]]; lia).
  assert (SY : (Z.sgn (dy e) = 0 \/ Z.sgn (dy e) = 1 \/ Z.sgn (dy e) = -1)%Z) by (destruct (Z.sgn_spec (dy e)) as [[_ ->]|[[_ ->]|[_ ->]]]; lia).
  split; [|split].
  - apply isz_coord; [exact U|exact NX|]. apply isz_add; [exact X|apply isz_mul; [exact DX|apply isz_int; lia|]|unfold at_x in NX; lia]. destruct SX as [->|[->| ->]]; lia.
  - apply isz_coord; [exact U|exact NY|]. apply isz_add; [exact Y|apply isz_mul; [exact DY|apply isz_int; lia|]|unfold at_y in NY; lia]. destruct SY as [->|[->| ->]]; lia.
  - now apply coord_grid.
Qed.

(** ** which side a triangle faces *)
Definition turn (t : grid_tri) : Z := let '((ax, ay), (bx, by_), (cx, cy)) := t in cross ax ay bx by_ cx cy.
Definition back (t : grid_tri) : grid_tri := let '(a, b, c) := t in (c, b, a).
Lemma turn_back t : turn (back t) = (- turn t)%Z.
Proof. destruct t as [[[ax ay] [bx b_y]] [cx cy]]. unfold back, turn, cross. ring. Qed.
Lemma clockwise_turn t : clockwise t <-> (turn t < 0)%Z.
Proof. destruct t as [[[ax ay] [bx b_y]] [cx cy]]. reflexivity. Qed.
Lemma tri_near_back t : tri_near t -> tri_near (back t).
Proof. destruct t as [[a b] c]. cbn. tauto. Qed.
Lemma h_faces square dbu z t : squares square -> unit_ok dbu -> height_ok z -> tri_near t -> turn t <> 0%Z ->
  faces square (h_tri dbu z t) (0, 0, IZR (Z.sgn (turn t))).
Proof.
  intros SQ U [FZ BZ] T K. destruct t as [[[ax ay] [bx b_y]] [cx cy]]. destruct T as ([A1 A2] & [B1 B2] & [C1 C2]). cbn [fst snd] in *.
  assert (CA := coord_grid dbu ax U A1). assert (CA' := coord_grid dbu ay U A2). assert (CB := coord_grid dbu bx U B1). assert (CB' := coord_grid dbu b_y U B2).
  assert (CC := coord_grid dbu cx U C1). assert (CC' := coord_grid dbu cy U C2).
  assert (N : near_origin ax /\ near_origin ay /\ near_origin bx /\ near_origin b_y /\ near_origin cx /\ near_origin cy) by tauto.
  assert (X := cross_ap dbu _ _ _ _ _ _ ax ay bx b_y cx cy U N (conj CA (conj CA' (conj CB (conj CB' (conj CC CC')))))).
  assert (B := cross_bound ax ay bx b_y cx cy N). cbn [turn] in K.
  assert (SZ := ap_sized dbu _ _ U X ltac:(lia)). unfold faces, h_tri, first, outside_reference_point. cbn [fst snd px py pz h_point pt_sub].
  assert (ZZ : zero (fsub z z)) by (now apply sub_same).
  assert (D1 := proj1 (diff_ap dbu _ _ _ _ U B1 A1 CB CA)). assert (D2 := proj1 (diff_ap dbu _ _ _ _ U B2 A2 CB' CA')).
  assert (D3 := proj1 (diff_ap dbu _ _ _ _ U C1 A1 CC CA)). assert (D4 := proj1 (diff_ap dbu _ _ _ _ U C2 A2 CC' CA')).
  apply (ref_z square (h_point dbu z (ax, ay))); [exact SQ|exact (coord_place _ _ _ U A1 CA)|exact (coord_place _ _ _ U A2 CA')|split; [exact FZ|cbn [pz h_point]; lra]| | |exact SZ].
  - apply sub_zero; [now apply mul_zero_r|now apply mul_zero_l].
  - apply add_zero; [apply mul_zero_r; [exact ZZ|unfold fopp; now rewrite is_finite_Bopp]|now apply mul_zero_l].
Qed.
Lemma scaled_cross s a0 b0 a1 b1 a2 b2 : cross (s * a0) b0 (s * a1) b1 (s * a2) b2 = (s * cross a0 b0 a1 b1 a2 b2)%Z.
Proof. unfold cross. ring. Qed.
Lemma coord_same dbu X Y n : coord dbu X n -> coord dbu Y n -> zero (fsub X Y).
Proof. intros [F V] [G W]. apply sub_same; [exact F|exact G|now rewrite V, W]. Qed.
Lemma v_faces square dbu e t : squares square -> unit_ok dbu -> edge_ok e -> tri_near t -> turn t <> 0%Z ->
  faces square (v_tri dbu (v_plane e) t) (IZR (Z.sgn (turn t) * Z.sgn (dy e)), - IZR (Z.sgn (turn t) * Z.sgn (dx e)), 0).
Proof.
  intros SQ U E T K. destruct t as [[[ax ay] [bx b_y]] [cx cy]]. destruct T as (NA & NB & NC). cbn [turn] in *.
  destruct (convert_coord dbu e _ U E NA) as (AX & AY & AZ). destruct (convert_coord dbu e _ U E NB) as (BX & BY & BZ). destruct (convert_coord dbu e _ U E NC) as (CX & CY & CZ).
  destruct NA as [A1 A2], NB as [B1 B2], NC as [C1 C2]. cbn [fst snd] in *.
  destruct (at_near e ax E A1) as [A3 A4]. destruct (at_near e bx E B1) as [B3 B4]. destruct (at_near e cx E C1) as [C3 C4].
  unfold faces, v_tri, first, outside_reference_point. cbn [fst snd]. unfold pt_sub. cbn [px py pz].
  set (pa := convert_point dbu (v_plane e) (ax, ay)) in *. set (pb := convert_point dbu (v_plane e) (bx, b_y)) in *. set (pc := convert_point dbu (v_plane e) (cx, cy)) in *.
  assert (D1 := proj1 (diff_ap dbu _ _ _ _ U B3 A3 BX AX)). assert (D2 := proj1 (diff_ap dbu _ _ _ _ U B4 A4 BY AY)). assert (D3 := proj1 (diff_ap dbu _ _ _ _ U B2 A2 BZ AZ)).
  assert (D4 := proj1 (diff_ap dbu _ _ _ _ U C3 A3 CX AX)). assert (D5 := proj1 (diff_ap dbu _ _ _ _ U C4 A4 CY AY)). assert (D6 := proj1 (diff_ap dbu _ _ _ _ U C2 A2 CZ AZ)).
  assert (PX := coord_place _ _ _ U A3 AX). assert (PY := coord_place _ _ _ U A4 AY). assert (PZ := coord_place _ _ _ U A2 AZ).
  assert (O1 : is_finite (fopp (fsub (px pb) (px pa))) = true) by (unfold fopp; now rewrite is_finite_Bopp).
  assert (BD := cross_bound ax ay bx b_y cx cy (conj A1 (conj A2 (conj B1 (conj B2 (conj C1 C2)))))).
  assert (SK : (Z.sgn (cross ax ay bx b_y cx cy) = 1 \/ Z.sgn (cross ax ay bx b_y cx cy) = -1)%Z) by (destruct (Z.sgn_spec (cross ax ay bx b_y cx cy)) as [[_ ->]|[[Q _]|[_ ->]]]; lia).
  destruct (at_cases e E) as [(S0 & S & AtX & AtY)|(S0 & S & AtX & AtY)]; rewrite !AtX in *; rewrite !AtY in *.
  - assert (X := cross_ap' dbu _ _ _ _ _ _ _ ay _ b_y _ cy U (conj A3 (conj A2 (conj B3 (conj B2 (conj C3 C2))))) (conj AX (conj AZ (conj BX (conj BZ (conj CX CZ)))))).
    rewrite scaled_cross in X. assert (SZ := ap_sized dbu _ _ U X ltac:(destruct S as [-> | ->]; lia)).
    rewrite S0. cbn [Z.sgn]. rewrite Z.mul_0_r. rewrite <- opp_IZR.
    replace (- (Z.sgn (cross ax ay bx b_y cx cy) * Z.sgn (dx e)))%Z with (Z.sgn (- (Z.sgn (dx e) * cross ax ay bx b_y cx cy))) by (rewrite Z.sgn_opp, Z.sgn_mul; destruct S as [-> | ->]; cbn [Z.sgn]; lia).
    assert (ZB := coord_same _ _ _ _ BY AY). assert (ZC := coord_same _ _ _ _ CY AY).
    apply (ref_y square pa); [exact SQ|exact PX|exact PY|exact PZ| |exact SZ|].
    + apply sub_zero; [now apply mul_zero_l|now apply mul_zero_r].
    + apply sub_zero; [now apply mul_zero_r|now apply mul_zero_l].
  - assert (X := cross_ap dbu _ _ _ _ _ _ _ ay _ b_y _ cy U (conj A4 (conj A2 (conj B4 (conj B2 (conj C4 C2))))) (conj AY (conj AZ (conj BY (conj BZ (conj CY CZ)))))).
    rewrite scaled_cross in X. assert (SZ := ap_sized dbu _ _ U X ltac:(destruct S as [-> | ->]; lia)).
    rewrite S0. cbn [Z.sgn]. rewrite Z.mul_0_r. replace (- IZR 0) with 0 by ring.
    replace (Z.sgn (cross ax ay bx b_y cx cy) * Z.sgn (dy e))%Z with (Z.sgn (Z.sgn (dy e) * cross ax ay bx b_y cx cy)) by (rewrite Z.sgn_mul; destruct S as [-> | ->]; cbn [Z.sgn]; lia).
    assert (ZB := coord_same _ _ _ _ BX AX). assert (ZC := coord_same _ _ _ _ CX AX).
    apply (ref_x square pa); [exact SQ|exact PX|exact PY|exact PZ|exact SZ| |].
    + apply add_zero; [apply mul_zero_l; [now apply opp_zero|exact D6]|now apply mul_zero_r].
    + apply sub_zero; [now apply mul_zero_l|now apply mul_zero_r].
Qed.
Lemma h_back dbu z t : reversed (h_tri dbu z t) = h_tri dbu z (back t). Proof. now destruct t as [[a b] c]. Qed.
Lemma v_back dbu v t : reversed (v_tri dbu v t) = v_tri dbu v (back t). Proof. now destruct t as [[a b] c]. Qed.
(** a triangle of a surface faces its first material, and turned over the other one *)
Lemma h_ok square dbu z t : squares square -> unit_ok dbu -> height_ok z -> tri_ok t ->
  faces square (h_tri dbu z t) down /\ faces square (reversed (h_tri dbu z t)) up.
Proof.
  intros SQ U H [C N]. rewrite clockwise_turn in C. split.
  - unfold down. change (-1) with (IZR (-1)). rewrite <- (Z.sgn_neg (turn t) C). apply h_faces; [exact SQ|exact U|exact H|exact N|lia].
  - rewrite h_back. unfold up. change 1 with (IZR 1). assert (P : (0 < turn (back t))%Z) by (rewrite turn_back; lia). rewrite <- (Z.sgn_pos _ P).
    apply h_faces; [exact SQ|exact U|exact H|now apply tri_near_back|lia].
Qed.
Lemma v_ok square dbu e t : squares square -> unit_ok dbu -> edge_ok e -> tri_ok t ->
  faces square (v_tri dbu (v_plane e) t) (left e) /\ faces square (reversed (v_tri dbu (v_plane e) t)) (opposite (left e)).
Proof.
  intros SQ U E [C N]. rewrite clockwise_turn in C. split.
  - assert (X := v_faces square dbu e t SQ U E N ltac:(lia)). rewrite (Z.sgn_neg _ C) in X. unfold left.
    replace (- IZR (Z.sgn (dy e))) with (IZR (-1 * Z.sgn (dy e))) by (rewrite mult_IZR; ring). replace (IZR (Z.sgn (dx e))) with (- IZR (-1 * Z.sgn (dx e))) by (rewrite mult_IZR; ring). exact X.
  - rewrite v_back. assert (P : (0 < turn (back t))%Z) by (rewrite turn_back; lia). assert (X := v_faces square dbu e (back t) SQ U E (tri_near_back _ N) ltac:(lia)). rewrite (Z.sgn_pos _ P) in X.
    unfold left, opposite. rewrite !Z.mul_1_l in X. replace (- - IZR (Z.sgn (dy e))) with (IZR (Z.sgn (dy e))) by ring. replace (- 0) with 0 by ring. exact X.
Qed.
