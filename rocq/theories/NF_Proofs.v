(** Fractions, digits and decimal notation. *)
From Coq Require Import ZArith Reals Lra Lia Psatz String Ascii List Qcanon Qreals.
From Flocq Require Import Core.Core Relative IEEE754.BinarySingleNaN.
From Verif Require Import PyBase PyStr PyNum FP_Model FP_Spec FP_Proofs NF_Model NF_Spec.
Import ListNotations.
Local Close Scope Qc_scope.
Local Open Scope string_scope.
Local Open Scope R_scope.

(** * Fractions *)
Definition ratio (f : Z * Z) : R := IZR (fst f) / IZR (snd f).
Lemma ratio_pos n d : (0 < n)%Z -> (0 < d)%Z -> 0 < IZR n / IZR d.
Proof. intros A B. apply Rdiv_lt_0_compat; now apply IZR_lt. Qed.

Lemma nearest_ok n d : (0 < d)%Z -> nearest (n, d) = ZnearestE (IZR n / IZR d).
Proof.
  intros D. unfold nearest. assert (F : Zfloor (IZR n / IZR d) = (n / d)%Z) by (apply Zfloor_div; lia).
  pose proof (Z.div_mod n d ltac:(lia)) as DM. pose proof (Z.mod_pos_bound n d D) as M.
  assert (Dp : 0 < IZR d) by (apply IZR_lt; exact D).
  assert (E : IZR n / IZR d - IZR (n / d) = IZR (n mod d) / IZR d).
  { rewrite DM at 1. rewrite plus_IZR, mult_IZR. field. lra. }
  unfold Znearest. rewrite F, E.
  assert (C : (n mod d <> 0)%Z -> Zceil (IZR n / IZR d) = (n / d + 1)%Z).
  { intros N. apply Zceil_imp. replace (n / d + 1 - 1)%Z with (n / d)%Z by lia. rewrite plus_IZR.
    assert (0 < IZR (n mod d) / IZR d) by (apply ratio_pos; lia).
    assert (IZR (n mod d) / IZR d < 1). { apply Rmult_lt_reg_r with (IZR d); [exact Dp|]. unfold Rdiv. rewrite Rmult_assoc, Rinv_l, Rmult_1_r, Rmult_1_l by lra. apply IZR_lt. lia. }
    split; lra. }
  assert (H2 : IZR (n mod d) / IZR d - / 2 = (IZR (2 * (n mod d)) - IZR d) / (2 * IZR d)) by (rewrite mult_IZR; field; lra).
  destruct (Z.ltb_spec (2 * (n mod d)) d) as [L|L].
  - rewrite Rcompare_Lt; [reflexivity|]. apply Rminus_lt. rewrite H2. apply IZR_lt in L.
    unfold Rdiv. apply Ropp_lt_cancel. rewrite Ropp_0, Ropp_mult_distr_l. apply Rmult_lt_0_compat; [lra|]. apply Rinv_0_lt_compat. lra.
  - destruct (Z.ltb_spec d (2 * (n mod d))) as [G|G].
    + rewrite Rcompare_Gt; [symmetry; apply C; lia|]. apply Rminus_gt. rewrite H2. apply IZR_lt in G.
      unfold Rdiv. apply Rmult_lt_0_compat; [lra|]. apply Rinv_0_lt_compat. lra.
    + assert (X : (2 * (n mod d) = d)%Z) by lia. rewrite Rcompare_Eq.
      * destruct (Z.even (n / d)); cbn [negb]; [reflexivity|]. symmetry. apply C. lia.
      * apply Rminus_diag_uniq. rewrite H2, X. field. lra.
Qed.

Section Base.
Variable r : radix.
Notation b := (radix_val r).
Lemma two_base : (2 <= b)%Z. Proof. apply Z.leb_le. apply radix_prop. Qed.

Lemma scale_ok k n d : (0 < n)%Z -> (0 < d)%Z ->
  (0 < fst (scale b k n d))%Z /\ (0 < snd (scale b k n d))%Z /\ ratio (scale b k n d) = IZR n / IZR d * bpow r (- k).
Proof.
  intros N D. pose proof two_base as B. unfold scale, ratio. assert (Dp : 0 < IZR d) by (apply IZR_lt; exact D).
  destruct (Z.leb_spec 0 k) as [L|L]; cbn [fst snd].
  - assert (P : (0 < b ^ k)%Z) by (apply Z.pow_pos_nonneg; lia). repeat split; [lia|nia|].
    rewrite mult_IZR, IZR_Zpower, bpow_opp by exact L. assert (0 < bpow r k) by apply bpow_gt_0. field. lra.
  - assert (P : (0 < b ^ (- k))%Z) by (apply Z.pow_pos_nonneg; lia). repeat split; [nia|lia|].
    rewrite mult_IZR, IZR_Zpower by lia. field. lra.
Qed.
Lemma reaches_ok k n d : (0 < n)%Z -> (0 < d)%Z -> reaches b k n d = true <-> bpow r k <= IZR n / IZR d.
Proof.
  intros N D. destruct (scale_ok k n d N D) as (P & Q & E). unfold reaches, ratio in *. destruct (scale b k n d) as [x y]. cbn [fst snd] in *.
  apply IZR_lt in Q. assert (Bp : 0 < bpow r k) by apply bpow_gt_0.
  assert (E' : IZR n / IZR d = IZR x / IZR y * bpow r k).
  { rewrite E, Rmult_assoc, <- bpow_plus. replace (- k + k)%Z with 0%Z by lia. cbn. ring. }
  rewrite E'. rewrite Z.leb_le. split; intros H.
  - apply IZR_le in H. rewrite <- (Rmult_1_l (bpow r k)) at 1. apply Rmult_le_compat_r; [lra|].
    apply Rmult_le_reg_r with (IZR y); [exact Q|]. unfold Rdiv. rewrite Rmult_assoc, Rinv_l by lra. lra.
  - apply le_IZR. rewrite <- (Rmult_1_l (bpow r k)) in H at 1. apply Rmult_le_reg_r in H; [|exact Bp].
    apply Rmult_le_compat_r with (r := IZR y) in H; [|lra]. unfold Rdiv in H. rewrite Rmult_assoc, Rinv_l in H by lra. lra.
Qed.
Lemma search_ok n d : (0 < n)%Z -> (0 < d)%Z -> forall fuel k,
  IZR n / IZR d < bpow r (k + 1) -> bpow r (k - Z.of_nat fuel) <= IZR n / IZR d ->
  bpow r (search fuel b k n d) <= IZR n / IZR d < bpow r (search fuel b k n d + 1).
Proof.
  intros N D. induction fuel as [|f IH]; intros k A C; cbn [search].
  - replace (k - Z.of_nat 0)%Z with k in C by lia. now split.
  - destruct (reaches b k n d) eqn:E.
    + apply reaches_ok in E; auto.
    + apply IH.
      * replace (k - 1 + 1)%Z with k by lia. apply Rnot_le_lt. intros X. apply reaches_ok in X; auto. congruence.
      * replace (k - 1 - Z.of_nat f)%Z with (k - Z.of_nat (S f))%Z by lia. exact C.
Qed.
Lemma log2_base a : (0 < a)%Z -> IZR a < bpow r (Z.log2 a + 1).
Proof.
  intros A. pose proof two_base as B. destruct (Z.log2_spec a A) as [_ L]. rewrite <- IZR_Zpower by (pose proof (Z.log2_nonneg a); lia).
  apply IZR_lt. eapply Z.lt_le_trans; [exact L|]. rewrite <- Z.add_1_r. apply Z.pow_le_mono_l. lia.
Qed.
Lemma magnitude_ok n d : (0 < n)%Z -> (0 < d)%Z ->
  bpow r (magnitude b n d) <= IZR n / IZR d < bpow r (magnitude b n d + 1).
Proof.
  intros N D. unfold magnitude. assert (Dp : 1 <= IZR d) by (apply IZR_le; lia). assert (Np : 1 <= IZR n) by (apply IZR_le; lia).
  pose proof (Z.log2_nonneg n). pose proof (Z.log2_nonneg d). apply search_ok; auto.
  - eapply Rle_lt_trans; [|apply log2_base; exact N]. apply Rmult_le_reg_r with (IZR d); [lra|]. unfold Rdiv. rewrite Rmult_assoc, Rinv_l by lra.
    rewrite Rmult_1_r. rewrite <- (Rmult_1_r (IZR n)) at 1. apply Rmult_le_compat_l; lra.
  - replace (Z.log2 n - Z.of_nat (S (S (Z.to_nat (Z.log2 n + Z.log2 d)))))%Z with (- (Z.log2 d + 2))%Z by lia.
    rewrite bpow_opp. apply Rle_trans with (/ IZR d).
    + apply Rinv_le; [lra|]. apply Rlt_le. eapply Rlt_le_trans; [apply log2_base; exact D|apply bpow_le; lia].
    + unfold Rdiv. rewrite <- (Rmult_1_l (/ IZR d)) at 1. apply Rmult_le_compat_r; [|exact Np]. apply Rlt_le, Rinv_0_lt_compat. lra.
Qed.
Lemma power_between x j k : bpow r j <= x < bpow r (j + 1) -> bpow r k <= x < bpow r (k + 1) -> j = k.
Proof.
  intros [A B] [C D]. assert (j < k + 1)%Z by (apply lt_bpow with r; lra). assert (k < j + 1)%Z by (apply lt_bpow with r; lra). lia.
Qed.
End Base.

(** * Twelve digits *)
Definition ten : radix := Build_radix 10 eq_refl.
Notation p10 := (bpow ten).
Lemma p10_pos k : 0 < p10 k. Proof. apply bpow_gt_0. Qed.
Lemma p10_powerRZ k : p10 k = powerRZ 10 k. Proof. apply bpow_powerRZ. Qed.
Lemma p10_pow (k : nat) : p10 (Z.of_nat k) = 10 ^ k.
Proof. rewrite p10_powerRZ. symmetry. apply pow_powerRZ. Qed.

Lemma twelve_value n d : (0 < n)%Z -> (0 < d)%Z -> exists q k, twelve n d = (q, k) /\ (10 ^ 11 <= q < 10 ^ 12)%Z /\
  Rabs (IZR q * p10 (k - 11) - IZR n / IZR d) <= 5 / 10 ^ 12 * (IZR n / IZR d).
Proof.
  intros N D. unfold twelve. set (k := magnitude 10 n d). destruct (magnitude_ok ten n d N D) as [A B]. change (radix_val ten) with 10%Z in A, B. fold k in A, B.
  set (x := IZR n / IZR d) in *. destruct (scale_ok ten (k - 11) n d N D) as (P & Q & E). change (radix_val ten) with 10%Z in P, Q, E.
  destruct (scale 10 (k - 11) n d) as [a c]. cbn [fst snd] in P, Q. unfold ratio in E. cbn [fst snd] in E. fold x in E.
  rewrite nearest_ok by exact Q. rewrite E. set (y := x * p10 (- (k - 11))) in *.
  assert (Y : p10 11 <= y < p10 12).
  { unfold y. assert (Z : 0 < p10 (- (k - 11))) by apply p10_pos. split.
    - replace (p10 11) with (p10 k * p10 (- (k - 11))) by (rewrite <- bpow_plus; f_equal; lia). apply Rmult_le_compat_r; lra.
    - replace (p10 12) with (p10 (k + 1) * p10 (- (k - 11))) by (rewrite <- bpow_plus; f_equal; lia). apply Rmult_lt_compat_r; lra. }
  assert (X : x = y * p10 (k - 11)). { unfold y. rewrite Rmult_assoc, <- bpow_plus. replace (- (k - 11) + (k - 11))%Z with 0%Z by lia. cbn. ring. }
  assert (H := Znearest_half (fun z => negb (Z.even z)) y). change (Rabs (y - IZR (ZnearestE y)) <= / 2) in H.
  set (q := ZnearestE y) in *. clearbody q. change (p10 11) with 100000000000 in Y. change (p10 12) with 1000000000000 in Y.
  apply Rabs_le_inv in H. assert (Z : 0 < p10 (k - 11)) by apply p10_pos.
  assert (L : (10 ^ 11 <= q)%Z). { apply Z.lt_succ_r. apply lt_IZR. unfold Z.succ. rewrite plus_IZR. change (IZR (10 ^ 11)) with 100000000000. lra. }
  assert (U : (q <= 10 ^ 12)%Z). { apply Z.lt_succ_r. apply lt_IZR. unfold Z.succ. rewrite plus_IZR. change (IZR (10 ^ 12)) with 1000000000000. lra. }
  assert (R : Rabs (IZR q * p10 (k - 11) - x) <= 5 / 10 ^ 12 * x).
  { rewrite X. replace (IZR q * p10 (k - 11) - y * p10 (k - 11)) with ((IZR q - y) * p10 (k - 11)) by ring.
    rewrite Rabs_mult, (Rabs_pos_eq (p10 (k - 11))) by lra. rewrite <- Rmult_assoc. apply Rmult_le_compat_r; [lra|].
    apply Rabs_le. lra. }
  destruct (Z.eqb_spec q (10 ^ 12)) as [->|Ne].
  - exists (10 ^ 11)%Z, (k + 1)%Z. split; [reflexivity|]. split; [lia|].
    replace (IZR (10 ^ 11) * p10 (k + 1 - 11)) with (IZR (10 ^ 12) * p10 (k - 11)); [exact R|].
    replace (k + 1 - 11)%Z with (1 + (k - 11))%Z by lia. rewrite bpow_plus. change (p10 1) with 10.
    change (IZR (10 ^ 11)) with 100000000000. change (IZR (10 ^ 12)) with 1000000000000. ring.
  - exists q, k. split; [reflexivity|]. split; [lia|exact R].
Qed.

(** The digits depend on the value only, and a number near enough to one of twelve digits gets these digits *)
Lemma twelve_near n d q k : (0 < n)%Z -> (0 < d)%Z -> (10 ^ 11 <= q < 10 ^ 12)%Z ->
  Rabs (IZR n / IZR d - IZR q * p10 (k - 11)) <= 4 / 10 ^ 13 * (IZR q * p10 (k - 11)) -> twelve n d = (q, k).
Proof.
  intros N D Hq H. unfold twelve. set (j := magnitude 10 n d). destruct (magnitude_ok ten n d N D) as [A B]. change (radix_val ten) with 10%Z in A, B. fold j in A, B.
  set (x := IZR n / IZR d) in *. destruct (scale_ok ten (j - 11) n d N D) as (P & Q & E). change (radix_val ten) with 10%Z in P, Q, E.
  destruct (scale 10 (j - 11) n d) as [a c]. cbn [fst snd] in P, Q. unfold ratio in E. cbn [fst snd] in E. fold x in E.
  rewrite nearest_ok by exact Q. rewrite E. clear E P Q a c.
  assert (Hq' : 100000000000 <= IZR q <= 999999999999).
  { split; [change 100000000000 with (IZR (10 ^ 11))|change 999999999999 with (IZR (10 ^ 12 - 1))]; apply IZR_le; lia. }
  apply Rabs_le_inv in H. set (w := p10 (k - 11)) in *. assert (W : 0 < w) by apply p10_pos.
  set (y := x / w). assert (X : x = y * w) by (unfold y; field; lra).
  assert (Y : IZR q - 4 / 10 ^ 13 * IZR q <= y <= IZR q + 4 / 10 ^ 13 * IZR q).
  { rewrite X in H. split; apply Rmult_le_reg_r with w; auto; lra. }
  assert (K1 : w * 100000000000 = p10 k). { unfold w. change 100000000000 with (p10 11). rewrite <- bpow_plus. f_equal. lia. }
  assert (K2 : w * 1000000000000 = p10 (k + 1)). { unfold w. change 1000000000000 with (p10 12). rewrite <- bpow_plus. f_equal. lia. }
  assert (K0 : w * 10000000000 = p10 (k - 1)). { unfold w. change 10000000000 with (p10 10). rewrite <- bpow_plus. f_equal. lia. }
  assert (Up : x < p10 (k + 1)). { rewrite <- K2, X, Rmult_comm. apply Rmult_lt_compat_l; [exact W|]. lra. }
  destruct (Rle_or_lt (p10 k) x) as [L|L].
  - assert (j = k) as -> by (apply (power_between ten x); split; auto).
    assert (Zn : ZnearestE (x * p10 (- (k - 11))) = q).
    { rewrite bpow_opp. fold w. change (x * / w) with y. apply Znearest_imp. apply Rabs_lt. lra. }
    rewrite Zn. destruct (Z.eqb_spec q (10 ^ 12)); [lia|reflexivity].
  - assert (Eq : q = (10 ^ 11)%Z).
    { assert (q < 10 ^ 11 + 1)%Z; [|lia]. apply lt_IZR. rewrite plus_IZR. change (IZR (10 ^ 11)) with 100000000000.
      apply Rnot_le_lt. intros C. rewrite <- K1, X, Rmult_comm in L. apply Rmult_lt_reg_l in L; [|exact W]. lra. }
    assert (j = k - 1)%Z as ->.
    { apply (power_between ten x); split; auto.
      - rewrite <- K0, X, Rmult_comm. apply Rmult_le_compat_r; lra.
      - replace (k - 1 + 1)%Z with k by lia. exact L. }
    assert (Zn : ZnearestE (x * p10 (- (k - 1 - 11))) = (10 ^ 12)%Z).
    { replace (- (k - 1 - 11))%Z with (1 + - (k - 11))%Z by lia. rewrite bpow_plus, bpow_opp. fold w. change (p10 1) with 10.
      replace (x * (10 * / w)) with (10 * y) by (unfold y; field; lra). apply Znearest_imp. change (IZR (10 ^ 12)) with 1000000000000.
      subst q. change (IZR (10 ^ 11)) with 100000000000 in Y. apply Rabs_lt. lra. }
    rewrite Zn, Z.eqb_refl, Eq. f_equal. lia.
Qed.
Lemma twelve_same n d n' d' : (0 < n)%Z -> (0 < d)%Z -> (0 < n')%Z -> (0 < d')%Z -> IZR n / IZR d = IZR n' / IZR d' -> twelve n d = twelve n' d'.
Proof.
  intros N D N' D' E. unfold twelve.
  assert (M : magnitude 10 n d = magnitude 10 n' d').
  { apply (power_between ten (IZR n / IZR d)); [apply (magnitude_ok ten); auto|]. rewrite E. apply (magnitude_ok ten); auto. }
  rewrite <- M. set (k := magnitude 10 n d).
  destruct (scale_ok ten (k - 11) n d N D) as (_ & Q & F). destruct (scale_ok ten (k - 11) n' d' N' D') as (_ & Q' & F').
  change (radix_val ten) with 10%Z in *.
  destruct (scale 10 (k - 11) n d) as [a c], (scale 10 (k - 11) n' d') as [a' c']. cbn [fst snd] in *. unfold ratio in F, F'. cbn [fst snd] in F, F'.
  rewrite !nearest_ok by assumption. rewrite F, F', E. reflexivity.
Qed.
(** every number of at most twelve digits has a form with exactly twelve *)
Lemma normal_form q j : (0 < q < 10 ^ 12)%Z -> exists q' k, (10 ^ 11 <= q' < 10 ^ 12)%Z /\ IZR q * p10 j = IZR q' * p10 (k - 11).
Proof.
  intros Q. destruct (magnitude_ok ten q 1 ltac:(lia) ltac:(lia)) as [A B]. change (radix_val ten) with 10%Z in A, B. set (m := magnitude 10 q 1) in *.
  replace (IZR q / 1) with (IZR q) in A, B by field.
  assert (M : (0 <= m <= 11)%Z).
  { split.
    - assert (0 < m + 1)%Z; [|lia]. apply lt_bpow with ten. eapply Rle_lt_trans; [|exact B]. cbn. apply IZR_le. lia.
    - assert (m < 12)%Z; [|lia]. apply lt_bpow with ten. eapply Rle_lt_trans; [exact A|]. change (p10 12) with (IZR (10 ^ 12)). apply IZR_lt. lia. }
  exists (q * 10 ^ (11 - m))%Z, (j + m)%Z.
  assert (P : IZR (q * 10 ^ (11 - m)) = IZR q * p10 (11 - m)) by (rewrite mult_IZR; f_equal; apply (IZR_Zpower ten); lia).
  split.
  - split.
    + apply le_IZR. rewrite P. change (IZR (10 ^ 11)) with (p10 11). replace (p10 11) with (p10 m * p10 (11 - m)) by (rewrite <- bpow_plus; f_equal; lia).
      apply Rmult_le_compat_r; [apply Rlt_le, p10_pos|exact A].
    + apply lt_IZR. rewrite P. change (IZR (10 ^ 12)) with (p10 12). replace (p10 12) with (p10 (m + 1) * p10 (11 - m)) by (rewrite <- bpow_plus; f_equal; lia).
      apply Rmult_lt_compat_r; [apply p10_pos|exact B].
  - rewrite P, Rmult_assoc, <- bpow_plus. do 2 f_equal. lia.
Qed.
