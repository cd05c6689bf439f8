(** Floats, their texts, and what is read from these. *)
From Coq Require Import ZArith Reals Lra Lia Psatz String Ascii List Qcanon Qreals.
From Flocq Require Import Core.Core Relative IEEE754.BinarySingleNaN.
From Verif Require Import PyBase PyStr FP_Model FP_Spec FP_Proofs NF_Model NF_Spec NF_Proofs NF_Text.
Import ListNotations.
Local Close Scope Qc_scope.
Local Open Scope string_scope.
Local Open Scope R_scope.

Lemma q_value_ok (x : float) : is_finite x = true -> Q2R (q_value x) = val x.
Proof.
  destruct x as [s|s| |s m e B]; intros F; try discriminate F; cbn [q_value].
  - unfold Q2R. cbn. ring.
  - change (B2R (B754_finite s m e B)) with (F2R (Float radix2 (cond_Zopp s (Zpos m)) e)). unfold F2R. cbn [Fnum Fexp].
    set (n := cond_Zopp s (Zpos m)). destruct (Z.leb_spec 0 e) as [L|L].
    + unfold Q2R. cbn [Qnum Qden inject_Z]. rewrite mult_IZR, Rinv_1, Rmult_1_r. f_equal. apply (IZR_Zpower radix2). exact L.
    + unfold Q2R. cbn [Qnum Qden]. rewrite Z2Pos.id by (apply Z.pow_pos_nonneg; lia).
      replace e with (- - e)%Z at 2 by lia. rewrite (bpow_opp radix2 (- e)). do 2 f_equal. apply (IZR_Zpower radix2). lia.
Qed.
Lemma f_text_q (x : float) : is_finite x = true -> val x = 0 /\ (f_text x = "0" \/ f_text x = "-0") \/ f_text x = q_text (q_value x).
Proof.
  destruct x as [s|s| |s m e B]; intros F; try discriminate F; [left|right; reflexivity].
  split; [reflexivity|]. destruct s; [right|left]; reflexivity.
Qed.
Lemma Q2R_zero x : (x == 0)%Q -> Q2R x = 0.
Proof. intros H. rewrite (Qeq_eqR _ _ H). unfold Q2R. cbn. ring. Qed.
Lemma signed_pos s x s' x' : 0 < x -> 0 < x' -> signed s x = signed s' x' -> s = s' /\ x = x'.
Proof. intros A B H. destruct s, s'; cbn in H; try lra; split; auto; lra. Qed.

Lemma q_text_same p q : (p == q)%Q -> q_text p = q_text q.
Proof.
  intros H. assert (E := Qeq_eqR _ _ H).
  destruct (q_text_ok p) as [[Z ->] | (s & n & d & a & k & N & D & V & T & _ & -> & _)];
  destruct (q_text_ok q) as [[Z' ->] | (s' & n' & d' & a' & k' & N' & D' & V' & T' & _ & -> & _)].
  - reflexivity.
  - exfalso. rewrite (Q2R_zero _ Z), V' in E. pose proof (ratio_pos _ _ N' D'). destruct s'; cbn in E; lra.
  - exfalso. rewrite (Q2R_zero _ Z'), V in E. pose proof (ratio_pos _ _ N D). destruct s; cbn in E; lra.
  - rewrite V, V' in E. apply signed_pos in E; [|now apply ratio_pos|now apply ratio_pos]. destruct E as [-> E].
    unfold g_text. now rewrite (twelve_same n d n' d') by assumption.
Qed.

(** * Near *)
Lemma twelve_digits_signed s q k : (10 ^ 11 <= q < 10 ^ 12)%Z -> twelve_digits (signed s (IZR q * p10 (k - 11))).
Proof.
  intros Q. exists (if s then - q else q)%Z, (k - 11)%Z. rewrite <- p10_powerRZ. split; [destruct s; lia|].
  destruct s; cbn [signed]; [rewrite opp_IZR; ring|reflexivity].
Qed.
Lemma q_near x : exists D, decimal (q_text x) D /\ twelve_digits D /\ close (Q2R x) D.
Proof.
  destruct (q_text_ok x) as [[Z ->] | (s & n & d & a & k & N & D & V & T & Q & -> & U & H)].
  - exists 0. split; [apply zero_decimal|]. split; [exists 0%Z, 0%Z; split; [reflexivity|ring]|]. unfold close. rewrite (Q2R_zero _ Z), Rminus_0_r, Rabs_R0. lra.
  - exists (signed s (IZR a * p10 (k - 11))). split; [apply signed_decimal, U|]. split; [now apply twelve_digits_signed|].
    unfold close. rewrite V, signed_minus, !signed_abs. rewrite (Rabs_pos_eq (IZR n / IZR d)); [exact H|]. apply Rlt_le. now apply ratio_pos.
Qed.
Lemma f_near (x : float) : is_finite x = true -> exists D, decimal (f_text x) D /\ twelve_digits D /\ close (val x) D.
Proof.
  intros F. destruct (f_text_q x F) as [[V H] | H].
  - exists 0. split; [destruct H as [-> | ->]; [apply zero_decimal|apply minus_zero_decimal]|]. split; [exists 0%Z, 0%Z; split; [reflexivity|ring]|].
    unfold close. rewrite V, Rminus_0_r, Rabs_R0. lra.
  - rewrite H, <- q_value_ok by exact F. apply q_near.
Qed.

(** * Exact *)
Lemma twelve_form D : twelve_digits D -> D = 0 \/ exists s q k, (10 ^ 11 <= q < 10 ^ 12)%Z /\ D = signed s (IZR q * p10 (k - 11)).
Proof.
  intros (q & j & Q & ->). rewrite <- p10_powerRZ. destruct (Z.eq_dec q 0) as [-> |Ne]; [left; ring|right].
  destruct (normal_form (Z.abs q) j ltac:(lia)) as (q' & k & Q' & E). exists (q <? 0)%Z, q', k. split; [exact Q'|]. rewrite <- E.
  destruct (Z.ltb_spec q 0); cbn [signed]; [rewrite Z.abs_neq, opp_IZR by lia; ring|rewrite Z.abs_eq by lia; reflexivity].
Qed.
(** the digits of a number near to one with twelve digits *)
Lemma q_near_twelve x s q k : (10 ^ 11 <= q < 10 ^ 12)%Z -> let D := IZR q * p10 (k - 11) in
  Rabs (Q2R x - signed s D) <= 4 / 10 ^ 13 * D ->
  exists n d, (0 < n)%Z /\ (0 < d)%Z /\ Q2R x = signed s (IZR n / IZR d) /\ twelve n d = (q, k) /\ q_text x = (if s then "-" else "") ++ g_text n d /\
    unsigned (g_text n d) D.
Proof.
  intros Q D H. assert (DP : 0 < D). { unfold D. apply Rmult_lt_0_compat; [apply IZR_lt; lia|apply p10_pos]. }
  destruct (q_text_ok x) as [[Z E] | (s' & n & d & a & k' & N & Dd & V & T & Q' & E & U & _)].
  - exfalso. rewrite (Q2R_zero _ Z) in H. rewrite <- Rabs_Ropp in H. replace (- (0 - signed s D)) with (signed s D) in H by ring. rewrite signed_abs, Rabs_pos_eq in H by lra. lra.
  - pose proof (ratio_pos n d N Dd) as X. rewrite V in H.
    assert (s' = s) as ->.
    { destruct s', s; cbn [signed] in H; auto; exfalso.
      - replace (- (IZR n / IZR d) - D) with (- (IZR n / IZR d + D)) in H by ring. rewrite Rabs_Ropp, Rabs_pos_eq in H by lra. lra.
      - replace (IZR n / IZR d - - D) with (IZR n / IZR d + D) in H by ring. rewrite Rabs_pos_eq in H by lra. lra. }
    rewrite signed_minus, signed_abs in H.
    assert (W : twelve n d = (q, k)) by (apply twelve_near; auto).
    exists n, d. rewrite W in T. injection T as <- <-. repeat split; auto.
Qed.
Lemma f_exact (x : float) D : is_finite x = true -> twelve_digits D -> Rabs (val x - D) <= 4 / 10 ^ 13 * Rabs D -> decimal (f_text x) D.
Proof.
  intros F T H. destruct (twelve_form D T) as [-> | (s & q & k & Q & ->)].
  - rewrite Rabs_R0, Rminus_0_r in H. assert (V : val x = 0). { apply Rabs_eq_R0. apply Rle_antisym; [lra|apply Rabs_pos]. }
    destruct (f_text_q x F) as [[_ [-> | ->]] | E]; [apply zero_decimal|apply minus_zero_decimal|].
    rewrite E. destruct (q_text_ok (q_value x)) as [[_ ->] | (s & n & d & a & k & N & Dd & V' & _)]; [apply zero_decimal|].
    exfalso. rewrite q_value_ok, V in V' by exact F. pose proof (ratio_pos n d N Dd). destruct s; cbn in V'; lra.
  - set (D := IZR q * p10 (k - 11)) in *. assert (DP : 0 < D). { unfold D. apply Rmult_lt_0_compat; [apply IZR_lt; lia|apply p10_pos]. }
    rewrite signed_abs, (Rabs_pos_eq D) in H by lra.
    destruct (f_text_q x F) as [[V _] | E].
    + exfalso. rewrite V in H. rewrite <- Rabs_Ropp in H. replace (- (0 - signed s D)) with (signed s D) in H by ring. rewrite signed_abs, Rabs_pos_eq in H by lra. lra.
    + rewrite <- q_value_ok in H by exact F. destruct (q_near_twelve (q_value x) s q k Q H) as (n & d & _ & _ & _ & _ & E' & U). rewrite E, E'. apply signed_decimal, U.
Qed.

(** * Read again *)
Lemma fl_rel x : bpow radix2 (-1022) <= Rabs x -> Rabs (fl x - x) <= u * Rabs x.
Proof.
  intros H. eapply Rle_trans; [apply (relative_error_N_FLT radix2 (-1074) 53 eq_refl (fun n => negb (Z.even n)) x); exact H|].
  apply Rmult_le_compat_r; [apply Rabs_pos|]. change (bpow radix2 (- (53) + 1)) with (/ 4503599627370496). unfold u. lra.
Qed.
Lemma ordinary_low : bpow radix2 (-1022) <= / 10 ^ 291.
Proof.
  change (-1022)%Z with (- (1022))%Z. rewrite bpow_opp. apply Rinv_le; [apply pow_lt; lra|]. rewrite <- (IZR_Zpower radix2) by discriminate. rewrite pow_IZR.
  apply IZR_le. vm_compute. discriminate.
Qed.
Lemma q_again x : ordinary (Q2R x) -> exists y, to_float (q_text x) = Some y /\ is_finite y = true /\
  Rabs (val y - Q2R x) <= 6 / 10 ^ 12 * Rabs (Q2R x) /\ q_text (q_value y) = q_text x /\ f_text y = q_text x.
Proof.
  intros [L U]. destruct (q_text_ok x) as [[Z _] | (s & n & d & q & k & N & Dd & V & T & Q & E & W & H)].
  { exfalso. rewrite (Q2R_zero _ Z), Rabs_R0 in L. assert (0 < / 10 ^ 290) by (apply Rinv_0_lt_compat, pow_lt; lra). lra. }
  pose proof (ratio_pos n d N Dd) as X. rewrite V, signed_abs, Rabs_pos_eq in L, U by lra. set (r := IZR n / IZR d) in *. set (D := IZR q * p10 (k - 11)) in *.
  assert (DP : 0 < D). { unfold D. apply Rmult_lt_0_compat; [apply IZR_lt; lia|apply p10_pos]. }
  apply Rabs_le_inv in H.
  assert (T290 : 0 < 10 ^ 290) by (apply pow_lt; lra).
  assert (DB : D <= 10 ^ 300). { replace (10 ^ 300) with (10 ^ 290 * 10 ^ 10) by (rewrite <- pow_add; reflexivity). lra. }
  assert (DL : / 10 ^ 291 <= D).
  { replace (/ 10 ^ 291) with (/ 10 ^ 290 * / 10) by (rewrite <- Rinv_mult; f_equal; rewrite <- (pow_1 10) at 2; rewrite <- pow_add; reflexivity). lra. }
  destruct (to_float_ok (q_text x) (signed s D)) as (y & Y & F & VY).
  { rewrite E. apply signed_decimal, W. }
  { rewrite signed_abs, Rabs_pos_eq by lra. exact DB. }
  change (val y = fl (signed s D)) in VY. rewrite fl_signed in VY.
  assert (R : Rabs (fl D - D) <= u * D).
  { rewrite <- (Rabs_pos_eq D) at 3 by lra. apply fl_rel. rewrite Rabs_pos_eq by lra. eapply Rle_trans; [apply ordinary_low|exact DL]. }
  exists y. split; [exact Y|]. split; [exact F|]. split.
  { rewrite VY, V, signed_minus, !signed_abs, (Rabs_pos_eq r) by lra. apply Rabs_le_inv in R. apply Rabs_le. unfold u in R. lra. }
  assert (C : Rabs (Q2R (q_value y) - signed s D) <= 4 / 10 ^ 13 * D).
  { rewrite q_value_ok, VY, signed_minus, signed_abs by exact F. eapply Rle_trans; [exact R|]. unfold u. lra. }
  destruct (q_near_twelve (q_value y) s q k Q C) as (n' & d' & N' & D' & V' & T' & E' & _).
  assert (G : q_text (q_value y) = q_text x). { rewrite E', E. unfold g_text. now rewrite T, T'. }
  split; [exact G|]. destruct (f_text_q y F) as [[Z _] | G']; [|now rewrite G'].
  exfalso. rewrite <- q_value_ok, V' in Z by exact F. pose proof (ratio_pos n' d' N' D'). destruct s; cbn in Z; lra.
Qed.

(** * Characters *)
Lemma digits_number s : all_chars isdigit s = true -> all_chars number_char s = true.
Proof. apply all_chars_impl. intros c C. unfold number_char. now rewrite C. Qed.
Lemma decimal_chars s x : decimal s x -> all_chars number_char s = true /\ s <> "".
Proof.
  intros (m & ex & y & k & F & E & H).
  assert (M : all_chars number_char m = true /\ m <> "").
  { destruct F as [(n & (A & B & _) & _) | (i & f & n & -> & I & _ & (_ & B & _) & _)]; [split; [now apply digits_number|exact A]|].
    rewrite all_chars_app in B. apply andb_prop in B. destruct B as [B1 B2]. split.
    - rewrite !all_chars_app, (digits_number i B1), (digits_number f B2). reflexivity.
    - destruct i; [congruence|discriminate]. }
  assert (X : all_chars number_char ex = true).
  { destruct E as [[-> _] | (ds & n & (_ & B & _) & [[-> _] | [-> _]])]; [reflexivity| |]; rewrite all_chars_app, (digits_number ds B); reflexivity. }
  destruct M as [M N]. destruct H as [[-> _] | [-> _]]; rewrite !all_chars_app, M, X; split; try reflexivity.
  - destruct m; [congruence|discriminate].
  - discriminate.
Qed.
