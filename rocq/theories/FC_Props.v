(** C92: rounding errors of the reported capacitances. *)
From Coq Require Import ZArith Reals Lra Lia Psatz List Bool.
From Flocq Require Import Core.Core IEEE754.BinarySingleNaN.
From Verif Require Import FP_Model FP_Spec FP_Proofs FC_Model FC_Spec FC_Proofs FC_Caps FC_Sums.
Import ListNotations.
Local Open Scope R_scope.

(** Every contribution is what the formula says, up to 300 half units in the last place of the whole contribution. *)
Theorem C92_piece : forall square atanf s p, accurate square (fun x => x * x) -> accurate atanf atan -> meant s p ->
  is_finite (cap square atanf s p) = true /\ 0 <= formula s p <= whole s p /\
  Rabs (val (cap square atanf s p) - formula s p) <= 300 * half_ulp * whole s p.
Proof.
  intros square atanf s p SQ AT M. destruct (acc_cap square atanf s p SQ AT M) as (F & A & B). split; [exact F|]. split; [|exact A].
  apply abs_le in B. split; [|lra]. clear F A B. destruct M as (U & H & M). assert (UP := num_pos _ U). destruct p as [area c|l d c o|l n f oc sc]; cbn [formula].
  - destruct M as [M1 M2]. destruct (near_overlap square s area c SQ U M1 M2) as (_ & _ & G). now apply rng_nonneg in G.
  - destruct M as (M1 & M2 & M3 & M4 & M5 & M6). destruct (near_sidewall s l d c o U M1 M2 M3 M4 M5 M6) as (_ & _ & G). now apply rng_nonneg in G.
  - destruct M as (M1 & M2 & M3 & M4 & M5). unfold count in M1. assert (L := um_pos s l U ltac:(lia)). assert (C := num_pos _ M5).
    assert (X := fringe_fraction_mono s (num_val oc) (IZR n * num_val (unit s)) (IZR f * num_val (unit s)) H (num_pos _ M4)).
    assert (IZR n * num_val (unit s) <= IZR f * num_val (unit s)) by (apply Rmult_le_compat_r; [lra|apply IZR_le; lia]).
    unfold Rdiv. apply Rmult_le_pos; [|lra]. apply Rmult_le_pos; [|lra]. apply Rmult_le_pos; [|lra]. specialize (X H0). lra.
Qed.
(** Overlaps and sidewalls have a relative error of less than 7e-15. *)
Theorem C92_relative : forall square atanf s p, accurate square (fun x => x * x) -> accurate atanf atan -> meant s p ->
  (forall l n f oc sc, p <> Fringe l n f oc sc) -> Rabs (val (cap square atanf s p) - formula s p) <= 60 * half_ulp * formula s p.
Proof.
  intros square atanf s p SQ AT (U & H & M) NF. assert (I : 3 * INR 20 = 60) by (rewrite INR_IZR_INZ; simpl; lra).
  destruct p as [area c|l d c o|l n f oc sc]; [| |now elim (NF l n f oc sc)].
  - destruct M as [M1 M2]. destruct (near_acc _ _ _ _ (near_overlap square s area c SQ U M1 M2) ltac:(lia)) as (_ & A & _). rewrite I in A. exact A.
  - destruct M as (M1 & M2 & M3 & M4 & M5 & M6). destruct (near_acc _ _ _ _ (near_sidewall s l d c o U M1 M2 M3 M4 M5 M6) ltac:(lia)) as (_ & A & _). rewrite I in A. exact A.
Qed.
(** An overlap is recorded if and only if there is one: rounding makes none vanish. *)
Theorem C92_overlap_recorded : forall square s area c, accurate square (fun x => x * x) -> meant s (Overlap area c) ->
  (overlap_kept (overlap_cap square (num_float (unit s)) area (num_float c)) = true <-> (0 < area)%Z).
Proof.
  intros square s area c SQ (U & _ & M1 & M2). destruct (near_overlap square s area c SQ U M1 M2) as (F & R & G).
  destruct (of_int_ok 0 ltac:(lia)) as [F0 V0]. unfold overlap_kept. rewrite (flt_ok _ _ F0 F), V0. cbn [formula] in R.
  assert (P := num_pos _ U). assert (Q := num_pos _ M2). split; intros H.
  - destruct (Z.eq_dec area 0) as [->|N]; [|lia]. destruct R as [_ R]. rewrite !Rmult_0_l in R. unfold Rdiv in R. rewrite !Rmult_0_l in R. lra.
  - eapply rel_pos; [|exact R]. apply IZR_lt in H. apply Rdiv_lt_0_compat; [|lra]. assert (R2 := Rmult_lt_0_compat _ _ P P). apply Rmult_lt_0_compat; [|exact Q]. now apply Rmult_lt_0_compat.
Qed.
(** A fringe is recorded if it exceeds 0.0001 fF, and not if it is below, except within the error of its computation. *)
Theorem C92_fringe_recorded : forall square atanf s l n f oc sc, accurate square (fun x => x * x) -> accurate atanf atan -> meant s (Fringe l n f oc sc) ->
  let p := Fringe l n f oc sc in
  (1 / 10000 * (1 + half_ulp) + 300 * half_ulp * whole s p < formula s p -> fringe_kept (cap square atanf s p) = true) /\
  (formula s p < 1 / 10000 * (1 - half_ulp) - 300 * half_ulp * whole s p -> fringe_kept (cap square atanf s p) = false).
Proof.
  intros square atanf s l n f oc sc SQ AT M p. destruct (acc_cap square atanf s p SQ AT M) as (F & A & _). apply abs_le in A.
  assert (S : short 1 10000) by (unfold short; lia). destruct (lit_ok 1 10000 S) as [FL _]. assert (E := lit_err 1 10000 S). rewrite (Rabs_pos_eq (1 / 10000)) in E by lra. apply abs_le in E.
  change half_ulp with u. unfold fringe_kept. split; intros H.
  - apply flt_ok; [exact FL|exact F|]. lra.
  - destruct (flt (lit 1 10000) (cap square atanf s p)) eqn:K; [|reflexivity]. apply flt_ok in K; [|exact FL|exact F]. lra.
Qed.

(** What is reported for two nets is the sum of the formulas over all contributions, up to 304 + 17 n half units in the last place of the whole, if no list of
    contributions has more than n entries. *)
Theorem C92_total : forall square atanf s n cells, accurate square (fun x => x * x) -> accurate atanf atan ->
  Forall (meant s) (pieces cells) -> at_most n cells -> INR n <= 1000000000 -> rsum (map (whole s) (pieces cells)) <= 10 ^ 100 ->
  is_finite (reported square atanf s cells) = true /\
  Rabs (val (reported square atanf s cells) - rsum (map (formula s) (pieces cells))) <= (304 + 17 * INR n) * half_ulp * rsum (map (whole s) (pieces cells)).
Proof.
  intros square atanf s n cells SQ AT M (L0 & L) N T. unfold pieces in *. change half_ulp with u. assert (UP := u_pos). assert (NP : 0 <= INR n) by apply pos_INR.
  assert (NU : 0 <= INR n * u <= / 1000000) by (split; [apply Rmult_le_pos; lra|apply Rle_trans with (1000000000 * u); [apply Rmult_le_compat_r; lra|unfold u; lra]]).
  assert (US : u <= / 1000000000) by (unfold u; lra).
  assert (BIG : 10 ^ 100 <= 10 ^ 150) by (apply ten_le; lia).
  set (w1 := fun l => rsum (map (whole s) l)). set (w2 := fun keys => rsum (map w1 keys)). set (w3 := fun kinds => rsum (map w2 kinds)).
  set (r1 := fun l => rsum (map (formula s) l)). set (r2 := fun keys => rsum (map r1 keys)). set (r3 := fun kinds => rsum (map r2 kinds)).
  assert (CW : rsum (map (whole s) (concat (concat (concat cells)))) = rsum (map w3 cells)).
  { rewrite !rsum_concat. reflexivity. }
  assert (CR : rsum (map (formula s) (concat (concat (concat cells)))) = rsum (map r3 cells)).
  { rewrite !rsum_concat. reflexivity. }
  rewrite CR, CW. rewrite CW in T.
  assert (P0 : Forall (fun p => acc (300 * u) (cap square atanf s p) (formula s p) (whole s p)) (concat (concat (concat cells)))).
  { eapply Forall_impl; [|exact M]. intros p. now apply acc_cap. }
  rewrite Forall_concat in P0. rewrite Forall_concat in P0. rewrite Forall_concat in P0.
  set (e1 := 300 * u + (11 * INR n + 4) * u). set (e2 := e1 + 2 * INR n * u). set (e3 := e2 + 2 * INR n * u).
  assert (W1 : forall l, Forall (fun p => acc (300 * u) (cap square atanf s p) (formula s p) (whole s p)) l -> 0 <= w1 l).
  { intros l H. apply rsum_nonneg, (scale_nonneg (cap square atanf s) (formula s) _ _ _ H). }
  assert (W2 : forall keys, Forall (Forall (fun p => acc (300 * u) (cap square atanf s p) (formula s p) (whole s p))) keys -> Forall (fun x => 0 <= x) (map w1 keys)).
  { intros keys H. rewrite Forall_map. eapply Forall_impl; [|exact H]. exact W1. }
  assert (W3 : forall kinds, Forall (Forall (Forall (fun p => acc (300 * u) (cap square atanf s p) (formula s p) (whole s p)))) kinds -> Forall (fun x => 0 <= x) (map w2 kinds)).
  { intros kinds H. rewrite Forall_map. eapply Forall_impl; [|exact H]. intros keys K. apply rsum_nonneg, W2, K. }
  assert (W4 : Forall (fun x => 0 <= x) (map w3 cells)).
  { rewrite Forall_map. eapply Forall_impl; [|exact P0]. intros keys K. apply rsum_nonneg, W3, K. }
  rewrite Forall_forall in P0, L.
  assert (X : acc (e3 + 2 * INR n * u) (added (map (fun kinds => cell_total (map (map (map (cap square atanf s))) kinds)) cells)) (rsum (map r3 cells)) (rsum (map w3 cells))).
  { apply acc_added; [unfold e3, e2, e1; lra|exact L0|unfold e3, e2, e1; lra| |lra]. apply Forall_forall. intros kinds IK. destruct (L kinds IK) as [L1 LK]. specialize (P0 kinds IK).
    assert (B3 : w3 kinds <= 10 ^ 100) by (eapply Rle_trans; [apply rsum_le_in; [exact W4|now apply in_map]|exact T]).
    assert (N3 := W3 _ P0). unfold cell_total. rewrite map_map. rewrite Forall_forall in P0, LK.
    apply acc_added; [unfold e2, e1; lra|exact L1|unfold e2, e1; lra| |unfold w3 in B3; lra]. apply Forall_forall. intros keys IY. destruct (LK keys IY) as [L2 LY]. specialize (P0 keys IY).
    assert (B2 : w2 keys <= 10 ^ 100) by (eapply Rle_trans; [apply rsum_le_in; [exact N3|now apply in_map]|exact B3]).
    assert (N2 := W2 _ P0). unfold kind_total. rewrite map_map. rewrite Forall_forall in P0, LY.
    apply acc_added; [unfold e1; lra|exact L2|unfold e1; lra| |unfold w2 in B2; lra]. apply Forall_forall. intros l IL. specialize (LY l IL). specialize (P0 l IL).
    assert (B1 : w1 l <= 10 ^ 100) by (eapply Rle_trans; [apply rsum_le_in; [exact N2|now apply in_map]|exact B2]).
    apply acc_py_sum; [lra|exact LY|lra|exact P0|unfold w1 in B1; lra]. }
  destruct X as (F & X & _). unfold reported, total. rewrite map_map. split; [exact F|]. unfold e3, e2, e1 in X.
  replace ((304 + 17 * INR n) * u) with (300 * u + (11 * INR n + 4) * u + 2 * INR n * u + 2 * INR n * u + 2 * INR n * u) by ring. exact X.
Qed.
(** With up to a million contributions in a list the error is below 2e-9. *)
Theorem C92_million : forall square atanf s cells, accurate square (fun x => x * x) -> accurate atanf atan ->
  Forall (meant s) (pieces cells) -> at_most (Z.to_nat 1000000) cells -> rsum (map (whole s) (pieces cells)) <= 10 ^ 100 ->
  Rabs (val (reported square atanf s cells) - rsum (map (formula s) (pieces cells))) <= 2 / 1000000000 * rsum (map (whole s) (pieces cells)).
Proof.
  intros square atanf s cells SQ AT M L T. assert (I : INR (Z.to_nat 1000000) = 1000000) by (rewrite INR_IZR_INZ, Z2Nat.id by lia; reflexivity).
  destruct (C92_total square atanf s _ cells SQ AT M L ltac:(lra) T) as [_ A]. eapply Rle_trans; [exact A|]. rewrite I. apply Rmult_le_compat_r; [|unfold half_ulp; lra].
  apply rsum_nonneg. rewrite Forall_map. eapply Forall_impl; [|exact M]. intros p MP. destruct (C92_piece square atanf s p SQ AT MP) as (_ & B & _). lra.
Qed.

(** *** Cases *)
(** Functions as accurate as asked for exist: the product for the square, and for the arc tangent the float nearest to it. *)
Definition rounded (r : R) : float :=
  binary_normalize prec emax Hprec Hmax mode_NE (Ztrunc (scaled_mantissa radix2 fexp (fl r))) (cexp radix2 fexp (fl r)) false.
Lemma rounded_ok r : Rabs r <= 10 ^ 200 -> is_finite (rounded r) = true /\ val (rounded r) = fl r.
Proof.
  intros H. assert (B := fl_fits r H). unfold rounded. assert (X : generic_format radix2 fexp (fl r)) by (apply generic_format_round; [exact (fexp_correct prec emax Hprec)|auto with typeclass_instances]).
  assert (G := binary_normalize_correct prec emax Hprec Hmax mode_NE (Ztrunc (scaled_mantissa radix2 fexp (fl r))) (cexp radix2 fexp (fl r)) false). cbv zeta in G.
  replace (F2R (Float radix2 (Ztrunc (scaled_mantissa radix2 fexp (fl r))) (cexp radix2 fexp (fl r)))) with (fl r) in G by exact X.
  change (round_mode mode_NE) with ZnearestE in G. rewrite (round_generic radix2 fexp ZnearestE (fl r) X) in G.
  rewrite Rlt_bool_true in G by exact B. destruct G as (V & F & _). split; assumption.
Qed.
Lemma rounded_accurate F : F 0 = 0 -> (forall x, / 10 ^ 60 <= x <= 10 ^ 60 -> / 10 ^ 121 <= F x <= 10 ^ 121) -> accurate (fun x => rounded (F (val x))) F.
Proof.
  intros F0 FB x _ [Z|B].
  - rewrite Z, F0. destruct (rounded_ok 0) as [G V]; [rewrite Rabs_R0; apply Rlt_le, ten_pos|]. split; [exact G|]. rewrite V, fl_0, Rminus_0_r, Rabs_R0. lra.
  - specialize (FB _ B). assert (P : 0 < / 10 ^ 121) by apply Rinv_0_lt_compat, ten_pos. assert (A : Rabs (F (val x)) = F (val x)) by (apply Rabs_pos_eq; lra).
    destruct (rounded_ok (F (val x))) as [G V]; [rewrite A; eapply Rle_trans; [apply FB|apply ten_le; lia]|]. split; [exact G|]. rewrite V.
    eapply Rle_trans; [apply fl_e|]. change half_ulp with u. rewrite A. enough (eta <= u * F (val x)) by lra.
    apply Rle_trans with (/ 10 ^ 20 * / 10 ^ 121).
    + unfold eta. rewrite <- Rinv_mult, <- pow_add. apply ten_inv_le. lia.
    + apply Rmult_le_compat; try (apply Rlt_le, Rinv_0_lt_compat, ten_pos); [|apply FB]. unfold u. apply Rinv_le; [lra|]. rewrite ten_IZR. apply IZR_le. vm_compute. discriminate.
Qed.
Lemma square_accurate : accurate (fun x => fmul x x) (fun x => x * x).
Proof.
  intros x F [Z|B].
  - destruct (mul_fits x x F F) as [G V]; [rewrite Z, Rmult_0_l, Rabs_R0; apply Rlt_le, ten_pos|]. split; [exact G|]. rewrite V, Z, Rmult_0_l, fl_0, Rminus_0_r, Rabs_R0. lra.
  - assert (P : rng 120 (val x * val x)) by (change 120%nat with (60 + 60)%nat; apply rng_mul; now right).
    assert (Q := rng_nonneg _ _ P). destruct (mul_fits x x F F) as [G V].
    { rewrite Rabs_pos_eq by exact Q. destruct P as [P|P]; [rewrite P; apply Rlt_le, ten_pos|]. eapply Rle_trans; [apply P|apply ten_le; lia]. }
    split; [exact G|]. rewrite V. change half_ulp with u. rewrite (Rabs_pos_eq (val x * val x)) by exact Q. eapply Rle_trans; [apply fl_e|]. rewrite Rabs_pos_eq by exact Q. enough (eta <= u * (val x * val x)) by lra.
    destruct B as [B1 B2]. apply Rle_trans with (/ 10 ^ 20 * (/ 10 ^ 60 * / 10 ^ 60)).
    + unfold eta. rewrite <- !Rinv_mult, <- !pow_add. apply ten_inv_le. lia.
    + assert (0 < / 10 ^ 60) by apply Rinv_0_lt_compat, ten_pos. apply Rmult_le_compat; [apply Rlt_le, Rinv_0_lt_compat, ten_pos|now apply Rlt_le, Rmult_lt_0_compat| |apply Rmult_le_compat; lra].
      unfold u. apply Rinv_le; [lra|]. rewrite ten_IZR. apply IZR_le. vm_compute. discriminate.
Qed.
Example C92_library : accurate (fun x => fmul x x) (fun x => x * x) /\ accurate (fun x => rounded (atan (val x))) atan.
Proof.
  split; [exact square_accurate|]. apply rounded_accurate; [exact atan_0|]. intros x B. assert (R1 : rng 61 (atan x)) by (apply rng_atan; now right).
  assert (P : 0 < / 10 ^ 60) by apply Rinv_0_lt_compat, ten_pos.
  destruct R1 as [R1|R1]; [|split; [eapply Rle_trans; [|apply R1]; apply ten_inv_le; lia|eapply Rle_trans; [apply R1|apply ten_le; lia]]].
  exfalso. assert (atan 0 < atan x) by (apply atan_increasing; lra). rewrite atan_0 in H. lra.
Qed.
(** One square micrometre of 38.19 aF/um^2, 10 um at a distance of 0.2 um with 16 aF/um and an offset of 0.25, and ten summands of 0.1: Python 3.12 gives the same. *)
Example C92_values :
  B2SF (overlap_cap (fun x => fmul x x) (lit 1 1000) 1000000 (lit 3819 100)) = SpecFloat.S754_finite false 0x138da3c21187e7 (-57) /\
  B2SF (sidewall_cap (lit 1 1000) 10000 200 (lit 16 1) (lit 25 100)) = SpecFloat.S754_finite false 0x16c16c16c16c17 (-55) /\
  B2SF (py_sum (repeat (lit 1 10) 10)) = SpecFloat.S754_finite false 0x10000000000000 (-52) /\
  B2SF (added (repeat (lit 1 10) 10)) = SpecFloat.S754_finite false 0x1fffffffffffff (-53).
Proof. vm_compute. repeat split. Qed.
Definition C92_setting : setting := Setting (Dec 1 1000) (Dec 8 1) true.
Definition C92_cells : list (list (list (list piece))) :=
  [[[[Overlap 1000000 (Dec 3819 100); Overlap 500 (Dec 3819 100)]]; [[Sidewall 10000 200 (Dec 16 1) (Dec 25 100)]]; [[Fringe 5000 0 4000 (Dec 3819 100) (Dec 4027 100)]; [Fringe 5000 100 7900 (Dec 17 1) (Dec 40 1)]]]; []].
(** The theorems apply to two cells with five contributions in all, and these have a capacitance. *)
Example C92_case : Forall (meant C92_setting) (pieces C92_cells) /\ at_most 3 C92_cells /\ (length (pieces C92_cells) = 5)%nat /\
  formula C92_setting (Overlap 1000000 (Dec 3819 100)) = 3819 / 100000 /\ 0 < formula C92_setting (Fringe 5000 100 7900 (Dec 17 1) (Dec 40 1)) /\
  rsum (map (whole C92_setting) (pieces C92_cells)) <= 10 ^ 100.
Proof.
  assert (PU : positive (unit C92_setting)) by (unfold positive, short; cbn; lia). assert (PH : positive (halo C92_setting)) by (unfold positive, short; cbn; lia).
  assert (FB : forall l f oc sc, (0 < l <= 10000)%Z -> (0 < f <= 8000)%Z -> positive oc -> positive sc -> num_val sc <= 100 -> formula C92_setting (Fringe l 0 f oc sc) <= 1).
  { intros l f oc sc L F PO PS SC. cbn [formula]. rewrite Rmult_0_l, fringe_fraction_0, Rminus_0_r. assert (PC := num_pos _ PO). assert (PSC := num_pos _ PS).
    assert (PF := um_pos C92_setting f PU ltac:(lia)). assert (PL := um_pos C92_setting l PU ltac:(lia)).
    assert (A : fringe_fraction C92_setting (num_val oc) (IZR f * num_val (unit C92_setting)) <= 1).
    { replace 1 with (fringe_fraction C92_setting (num_val oc) (num_val (halo C92_setting))).
      - apply fringe_fraction_mono; [exact PH|exact PC|]. unfold num_val. cbn. assert (IZR f <= 8000) by (apply IZR_le; lia). lra.
      - unfold fringe_fraction. cbn [fit_halo C92_setting]. unfold Rdiv. apply Rinv_r. assert (0 < fraction (num_val oc) (num_val (halo C92_setting))) by (apply fraction_pos; [exact PC|now apply num_pos]). lra. }
    assert (A0 := fringe_fraction_pos C92_setting (num_val oc) _ PH PC PF).
    assert (B : IZR l * num_val (unit C92_setting) <= 10) by (unfold num_val; cbn; assert (IZR l <= 10000) by (apply IZR_le; lia); lra).
    apply Rle_trans with (1 * 10 * 100 / 1000); [|lra]. unfold Rdiv. apply Rmult_le_compat_r; [lra|]. apply Rmult_le_compat; [apply Rmult_le_pos; lra|lra| |exact SC]. apply Rmult_le_compat; lra. }
  split; [|split; [|split; [reflexivity|split; [|split]]]].
  - unfold C92_cells, pieces. cbn [concat app]. repeat constructor; unfold positive, short, count; cbn; try lia.
  - unfold at_most, C92_cells. cbn [length]. repeat (constructor; try (cbn [length]; lia)).
  - cbn [formula]. unfold num_val. cbn. field.
  - cbn [formula]. assert (P : 0 < num_val (Dec 17 1)) by (unfold num_val; cbn; lra). set (x := IZR 100 * num_val (unit C92_setting)). set (y := IZR 7900 * num_val (unit C92_setting)).
    assert (S : fringe_fraction C92_setting (num_val (Dec 17 1)) x < fringe_fraction C92_setting (num_val (Dec 17 1)) y).
    { unfold fringe_fraction. cbn [fit_halo C92_setting]. unfold Rdiv. apply Rmult_lt_compat_r; [apply Rinv_0_lt_compat, fraction_pos; [exact P|now apply num_pos]|].
      unfold fraction. assert (PI_ := PI_RGT_0). apply Rmult_lt_compat_l; [apply Rdiv_lt_0_compat; lra|]. apply atan_increasing. unfold x, y, num_val. cbn. lra. }
    assert (0 < num_val (unit C92_setting)) by now apply num_pos. apply Rdiv_lt_0_compat; [|lra]. apply Rmult_lt_0_compat; [|unfold num_val; cbn; lra]. apply Rmult_lt_0_compat; [lra|]. lra.
  - apply Rle_trans with (10 ^ 1); [|apply ten_le; lia]. unfold C92_cells, pieces. cbn [concat app map whole]. unfold rsum. cbn [fold_right].
    assert (G1 := FB 5000%Z 4000%Z (Dec 3819 100) (Dec 4027 100) ltac:(lia) ltac:(lia) ltac:(unfold positive, short; cbn; lia) ltac:(unfold positive, short; cbn; lia) ltac:(unfold num_val; cbn; lra)).
    assert (G2 := FB 5000%Z 7900%Z (Dec 17 1) (Dec 40 1) ltac:(lia) ltac:(lia) ltac:(unfold positive, short; cbn; lia) ltac:(unfold positive, short; cbn; lia) ltac:(unfold num_val; cbn; lra)).
    assert (G3 : formula C92_setting (Overlap 1000000 (Dec 3819 100)) <= 1) by (cbn [formula]; unfold num_val; cbn; lra).
    assert (G4 : formula C92_setting (Overlap 500 (Dec 3819 100)) <= 1) by (cbn [formula]; unfold num_val; cbn; lra).
    assert (G5 : formula C92_setting (Sidewall 10000 200 (Dec 16 1) (Dec 25 100)) <= 1) by (cbn [formula]; unfold num_val; cbn; lra).
    lra.
Qed.

Print Assumptions C92_piece.
Print Assumptions C92_relative.
Print Assumptions C92_overlap_recorded.
Print Assumptions C92_fringe_recorded.
Print Assumptions C92_total.
Print Assumptions C92_million.
