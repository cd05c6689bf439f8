(** Rounding errors of the conversions. *)
From Coq Require Import ZArith Reals Lra Lia Psatz.
From Flocq Require Import Core.Core Relative IEEE754.BinarySingleNaN.
From Verif Require Import FP_Model FP_Spec.
Local Open Scope R_scope.

Notation fexp := (SpecFloat.fexp prec emax).
Definition fl (x : R) : R := round radix2 fexp ZnearestE x.
Definition u : R := / 9007199254740992.
Definition tiny : R := / 1000000000000000000000000000000.
Lemma u_pos : 0 < u. Proof. unfold u. lra. Qed.
Lemma tiny_pos : 0 < tiny. Proof. unfold tiny. lra. Qed.

Lemma fexp_flt e : fexp e = FLT_exp (-1074) 53 e. Proof. reflexivity. Qed.
Lemma bpow_tiny : / 2 * bpow radix2 (-1074) <= tiny.
Proof.
  apply Rle_trans with (bpow radix2 (-100)).
  - apply Rle_trans with (bpow radix2 (-1074)); [assert (0 <= bpow radix2 (-1074)) by apply bpow_ge_0; lra|apply bpow_le; lia].
  - unfold tiny. change (bpow radix2 (-100)) with (/ IZR (Z.pow_pos 2 100)). apply Rinv_le; [lra|].
    apply IZR_le. vm_compute. discriminate.
Qed.
Lemma fl_err x : Rabs (fl x - x) <= u * Rabs x + tiny.
Proof.
  destruct (relative_error_N_FLT'_ex radix2 (-1074) 53 eq_refl (fun n => negb (Z.even n)) x) as (eps & eta & A & B & _ & C).
  assert (E : fl x = x * (1 + eps) + eta) by exact C. rewrite E.
  replace (x * (1 + eps) + eta - x) with (eps * x + eta) by ring.
  eapply Rle_trans; [apply Rabs_triang|]. rewrite Rabs_mult. apply Rplus_le_compat; [|eapply Rle_trans; [exact B|apply bpow_tiny]].
  apply Rmult_le_compat_r; [apply Rabs_pos|]. eapply Rle_trans; [exact A|].
  unfold u_ro. change (bpow radix2 (- (53) + 1)) with (/ 4503599627370496). unfold u. lra.
Qed.
Lemma fl_mono x y : x <= y -> fl x <= fl y.
Proof. intros H. unfold fl. apply round_le; [exact (fexp_correct prec emax Hprec)|auto with typeclass_instances|exact H]. Qed.
Lemma fl_below x : Rabs x <= 1000000000000000000000000000000000000 -> Rabs (fl x) < bpow radix2 emax.
Proof.
  intros H. assert (E := fl_err x). assert (T : Rabs (fl x) <= Rabs x + Rabs (fl x - x)).
  { replace (fl x) with (x + (fl x - x)) at 1 by ring. apply Rabs_triang. }
  apply Rle_lt_trans with (bpow radix2 200); [|apply bpow_lt; reflexivity].
  change (bpow radix2 200) with (IZR (Z.pow_pos 2 200)).
  apply Rle_trans with 10000000000000000000000000000000000000; [unfold u, tiny in E; lra|].
  apply IZR_le. vm_compute. discriminate.
Qed.

Definition huge : R := 1000000000000000000000000000000000000.
Lemma add_ok a b : is_finite a = true -> is_finite b = true -> Rabs (val a + val b) <= huge ->
  is_finite (fadd a b) = true /\ val (fadd a b) = fl (val a + val b).
Proof.
  intros A B H. assert (C := Bplus_correct prec emax Hprec Hmax mode_NE a b A B).
  change (round radix2 fexp (round_mode mode_NE) (val a + val b)) with (fl (val a + val b)) in C.
  rewrite Rlt_bool_true in C by (apply fl_below; exact H). destruct C as (C & D & _). now split.
Qed.
Lemma sub_ok a b : is_finite a = true -> is_finite b = true -> Rabs (val a - val b) <= huge ->
  is_finite (fsub a b) = true /\ val (fsub a b) = fl (val a - val b).
Proof.
  intros A B H. assert (C := Bminus_correct prec emax Hprec Hmax mode_NE a b A B).
  change (round radix2 fexp (round_mode mode_NE) (val a - val b)) with (fl (val a - val b)) in C.
  rewrite Rlt_bool_true in C by (apply fl_below; exact H). destruct C as (C & D & _). now split.
Qed.
Lemma mul_ok a b : is_finite a = true -> is_finite b = true -> Rabs (val a * val b) <= huge ->
  is_finite (fmul a b) = true /\ val (fmul a b) = fl (val a * val b).
Proof.
  intros A B H. assert (C := Bmult_correct prec emax Hprec Hmax mode_NE a b).
  change (round radix2 fexp (round_mode mode_NE) (val a * val b)) with (fl (val a * val b)) in C.
  rewrite Rlt_bool_true in C by (apply fl_below; exact H). destruct C as (C & D & _). rewrite A, B in D. now split.
Qed.
Lemma div_ok a b : is_finite a = true -> val b <> 0 -> Rabs (val a / val b) <= huge ->
  is_finite (fdiv a b) = true /\ val (fdiv a b) = fl (val a / val b).
Proof.
  intros A B H. assert (C := Bdiv_correct prec emax Hprec Hmax mode_NE a b B).
  change (round radix2 fexp (round_mode mode_NE) (val a / val b)) with (fl (val a / val b)) in C.
  rewrite Rlt_bool_true in C by (apply fl_below; exact H). destruct C as (C & D & _). rewrite A in D. now split.
Qed.
(** if the result is finite there was no overflow *)
Lemma overflow_infinite s (x : float) : B2SF x = binary_overflow prec emax mode_NE s -> is_finite x = false.
Proof. intros H. rewrite <- is_finite_SF_B2SF, H. reflexivity. Qed.
Lemma add_fin a b : is_finite (fadd a b) = true -> is_finite a = true /\ is_finite b = true /\ val (fadd a b) = fl (val a + val b).
Proof.
  intros F. assert (X : is_finite a = true /\ is_finite b = true).
  { destruct a as [s|s| |s m e V], b as [s'|s'| |s' m' e' V']; cbn in F; try discriminate F; try (now split);
    unfold fadd in F; cbn in F; destruct (Bool.eqb s s'); discriminate F. }
  destruct X as [A B]. split; [exact A|]. split; [exact B|]. assert (C := Bplus_correct prec emax Hprec Hmax mode_NE a b A B).
  change (round radix2 fexp (round_mode mode_NE) (val a + val b)) with (fl (val a + val b)) in C.
  destruct (Rlt_bool _ _); [exact (proj1 C)|]. destruct C as [C _]. apply overflow_infinite in C. unfold fadd in F. congruence.
Qed.
Lemma div_fin a b : is_finite (fdiv a b) = true -> val b <> 0 -> val (fdiv a b) = fl (val a / val b).
Proof.
  intros F B. assert (C := Bdiv_correct prec emax Hprec Hmax mode_NE a b B).
  change (round radix2 fexp (round_mode mode_NE) (val a / val b)) with (fl (val a / val b)) in C.
  destruct (Rlt_bool _ _); [exact (proj1 C)|]. apply overflow_infinite in C. unfold fdiv in F. congruence.
Qed.

Lemma int_format n : (Z.abs n < 2 ^ 53)%Z -> fl (IZR n) = IZR n.
Proof.
  intros H. unfold fl. apply round_generic; [auto with typeclass_instances|].
  apply (generic_format_FLT radix2 (-1074) 53). exists (Float radix2 n 0); cbn [Fnum Fexp]; [|exact H|lia].
  unfold F2R. cbn [Fnum Fexp bpow]. ring.
Qed.
Lemma abs_int n : Rabs (IZR n) = IZR (Z.abs n). Proof. now rewrite abs_IZR. Qed.
Lemma of_int_ok n : (Z.abs n < 2 ^ 53)%Z -> is_finite (of_int n) = true /\ val (of_int n) = IZR n.
Proof.
  intros H. assert (C := binary_normalize_correct prec emax Hprec Hmax mode_NE n 0 false). cbv zeta in C.
  replace (F2R (Float radix2 n 0)) with (IZR n) in C by (unfold F2R; cbn; ring).
  change (round radix2 fexp (round_mode mode_NE) (IZR n)) with (fl (IZR n)) in C. rewrite (int_format n H) in C.
  rewrite Rlt_bool_true in C.
  - destruct C as (C & D & _). now split.
  - rewrite abs_int. apply Rlt_trans with (bpow radix2 53); [|apply bpow_lt; reflexivity].
    change (bpow radix2 53) with (IZR (2 ^ 53)). now apply IZR_lt.
Qed.
Lemma quot_bound n d : short n d -> Rabs (IZR n / IZR d) <= 9007199254740992.
Proof.
  intros (A & B & C). unfold Rdiv. rewrite Rabs_mult, abs_int. assert (1 <= IZR d) by (apply IZR_le; lia).
  rewrite (Rabs_pos_eq (/ IZR d)) by (left; apply Rinv_0_lt_compat; lra).
  assert (IZR (Z.abs n) <= 9007199254740992) by (apply IZR_le; lia). assert (0 <= IZR (Z.abs n)) by (apply IZR_le; lia).
  assert (/ IZR d <= 1). { rewrite <- Rinv_1. apply Rinv_le; lra. }
  assert (0 < / IZR d) by (apply Rinv_0_lt_compat; lra). nra.
Qed.
(** a literal is nearest to what it says *)
Lemma lit_ok n d : short n d -> is_finite (lit n d) = true /\ val (lit n d) = fl (IZR n / IZR d).
Proof.
  intros S. destruct S as (A & B & C). destruct (of_int_ok n A) as [F1 V1]. destruct (of_int_ok d ltac:(lia)) as [F2 V2].
  assert (X := div_ok (of_int n) (of_int d) F1). rewrite V1, V2 in X. apply X.
  - apply not_0_IZR. lia.
  - eapply Rle_trans; [apply quot_bound; repeat split; assumption|]. unfold huge. lra.
Qed.
(** relative error only, as a quotient of short numbers is not tiny *)
Lemma lit_err n d : short n d -> Rabs (val (lit n d) - IZR n / IZR d) <= u * Rabs (IZR n / IZR d).
Proof.
  intros S. destruct (lit_ok n d S) as [_ ->]. destruct S as (A & B & C).
  destruct (Z.eq_dec n 0) as [->|N].
  { unfold Rdiv. rewrite Rmult_0_l. unfold fl. rewrite round_0 by auto with typeclass_instances. rewrite Rminus_0_r, Rabs_R0. lra. }
  assert (H := relative_error_N_FLT radix2 (-1074) 53 eq_refl (fun n => negb (Z.even n)) (IZR n / IZR d)).
  change (/ 2 * bpow radix2 (- (53) + 1)) with (/ 2 * / 4503599627370496) in H. 
  change (round radix2 (FLT_exp (-1074) 53) (Znearest (fun n0 => negb (Z.even n0))) (IZR n / IZR d)) with (fl (IZR n / IZR d)) in H.
  eapply Rle_trans; [apply H|unfold u; lra].
  apply Rle_trans with (bpow radix2 (-53)); [apply bpow_le; lia|].
  change (bpow radix2 (-53)) with (/ 9007199254740992). unfold Rdiv. rewrite Rabs_mult, abs_int.
  assert (1 <= IZR d) by (apply IZR_le; lia). rewrite (Rabs_pos_eq (/ IZR d)) by (left; apply Rinv_0_lt_compat; lra).
  assert (1 <= IZR (Z.abs n)) by (apply IZR_le; lia).
  assert (/ 9007199254740992 <= / IZR d). { apply Rinv_le; [lra|]. apply IZR_le. lia. }
  assert (0 < / IZR d) by (apply Rinv_0_lt_compat; lra). nra.
Qed.

(** ** floor and int *)
Lemma floor_ok (x : float) : is_finite x = true -> floor x = Some (Zfloor (val x)).
Proof.
  destruct x as [s|s| |s m e V]; intros F; try discriminate F; cbn [floor B2R]; f_equal; [symmetry; apply Zfloor_IZR|].
  destruct (Z.leb_spec 0 e) as [L|L]; symmetry.
  - unfold F2R. cbn [Fnum Fexp]. rewrite <- (IZR_Zpower radix2 e L), <- mult_IZR. apply Zfloor_IZR.
  - unfold F2R. cbn [Fnum Fexp]. rewrite <- (Z.opp_involutive e) at 1. rewrite bpow_opp, <- IZR_Zpower by lia. apply Zfloor_div.
    assert (0 < 2 ^ (- e))%Z by (apply Z.pow_pos_nonneg; lia). change (radix2 ^ (- e))%Z with (2 ^ (- e))%Z. lia.
Qed.
Lemma floor_fin (x : float) n : floor x = Some n -> is_finite x = true.
Proof. destruct x; cbn; congruence. Qed.
Lemma int_ok (x : float) : is_finite x = true -> int x = Some (Ztrunc (val x)).
Proof.
  destruct x as [s|s| |s m e V]; intros F; try discriminate F; cbn [int B2R]; f_equal; [symmetry; apply Ztrunc_IZR|].
  destruct (Z.leb_spec 0 e) as [L|L]; symmetry.
  - unfold F2R. cbn [Fnum Fexp]. rewrite <- (IZR_Zpower radix2 e L), <- mult_IZR. apply Ztrunc_IZR.
  - unfold F2R. cbn [Fnum Fexp]. rewrite <- (Z.opp_involutive e) at 1. rewrite bpow_opp, <- IZR_Zpower by lia. apply Ztrunc_div.
    assert (0 < 2 ^ (- e))%Z by (apply Z.pow_pos_nonneg; lia). change (radix2 ^ (- e))%Z with (2 ^ (- e))%Z. lia.
Qed.

(** ** errors of a quotient by the unit *)
Lemma abs_le x y : Rabs x <= y <-> - y <= x <= y.
Proof. split; [intros H; unfold Rabs in H; destruct (Rcase_abs x); lra|intros H; unfold Rabs; destruct (Rcase_abs x); lra]. Qed.
Lemma fl_err' x : x - (u * Rabs x + tiny) <= fl x <= x + (u * Rabs x + tiny).
Proof. assert (H := fl_err x). apply abs_le in H. lra. Qed.

(** the unit *)
Definition unit_of (dbu : float) (D : R) : Prop := is_finite dbu = true /\ 0 < D /\ Rabs (val dbu - D) <= u * D.
Lemma lit_unit n d : (0 < n)%Z -> short n d -> unit_of (lit n d) (IZR n / IZR d).
Proof.
  intros P S. split; [apply lit_ok; exact S|]. destruct S as (A & B & C).
  assert (0 < IZR n / IZR d). { apply Rdiv_lt_0_compat; apply IZR_lt; lia. }
  split; [assumption|]. rewrite <- (Rabs_pos_eq (IZR n / IZR d)) at 2 by lra. now apply lit_err.
Qed.
(** a quotient by the unit is off by three roundings *)
Lemma quotient dbu D (z : float) t e : unit_of dbu D -> is_finite z = true -> Rabs t <= 1152921504606846976 -> 0 <= e <= 1 ->
  Rabs (val z - t * D) <= e * D ->
  is_finite (fdiv z dbu) = true /\ Rabs (val (fdiv z dbu) - t) <= 3 * u * Rabs t + 2 * e + 3 * tiny.
Proof.
  intros (FD & PD & ED) FZ T E H. apply abs_le in ED. 
  assert (UP := u_pos). assert (TP := tiny_pos).
  assert (V : 0 < val dbu) by (unfold u in ED; lra).
  set (q := val z / val dbu).
  assert (Q : val z = q * val dbu) by (unfold q; field; lra).
  assert (B : Rabs (q - t) <= (11/10) * u * Rabs t + (11/10) * e).
  { replace (q - t) with ((val z - t * D - t * (val dbu - D)) / val dbu) by (unfold q; field; lra).
    unfold Rdiv. rewrite Rabs_mult, (Rabs_pos_eq (/ val dbu)) by (left; now apply Rinv_0_lt_compat).
    apply Rmult_le_reg_r with (val dbu); [exact V|]. rewrite Rmult_assoc, Rinv_l, Rmult_1_r by lra.
    assert (A1 : Rabs (val z - t * D - t * (val dbu - D)) <= e * D + Rabs t * (u * D)).
    { eapply Rle_trans; [apply Rabs_triang|]. rewrite Rabs_Ropp, Rabs_mult. apply Rplus_le_compat; [exact H|].
      apply Rmult_le_compat_l; [apply Rabs_pos|]. apply abs_le. lra. }
    eapply Rle_trans; [exact A1|]. assert (0 <= Rabs t) by apply Rabs_pos.
    assert (X : D <= 11/10 * val dbu) by (unfold u in ED; lra).
    assert (0 <= u * Rabs t) by (apply Rmult_le_pos; lra). nra. }
  assert (QB : Rabs q <= Rabs t + ((11/10) * u * Rabs t + (11/10) * e)).
  { replace q with (t + (q - t)) by ring. eapply Rle_trans; [apply Rabs_triang|]. lra. }
  destruct (div_ok z dbu FZ) as [F V']; [lra| |].
  - fold q. eapply Rle_trans; [exact QB|]. unfold huge. assert (0 <= Rabs t) by apply Rabs_pos. unfold u. lra.
  - split; [exact F|]. rewrite V'. fold q. assert (K := fl_err q).
    replace (fl q - t) with ((fl q - q) + (q - t)) by ring. eapply Rle_trans; [apply Rabs_triang|].
    assert (0 <= Rabs t) by apply Rabs_pos.
    assert (0 <= u * Rabs t) by (apply Rmult_le_pos; lra).
    assert (u * Rabs q <= u * Rabs t + u * ((11/10) * u * Rabs t + (11/10) * e)) by (rewrite <- Rmult_plus_distr_l; apply Rmult_le_compat_l; lra).
    assert (u * ((11/10) * u * Rabs t + (11/10) * e) <= (1/10) * (u * Rabs t) + (1/10) * e) by (unfold u in *; lra).
    lra.
Qed.
(** adding a small number and taking the floor *)
Lemma add_small (q c : float) t e : is_finite q = true -> is_finite c = true -> Rabs t <= 1152921504606846976 -> 0 <= e <= 2 -> 0 <= val c <= 1 ->
  Rabs (val q - t) <= e ->
  is_finite (fadd q c) = true /\ Rabs (val (fadd q c) - (t + val c)) <= e + u * (Rabs t + e + 1) + tiny.
Proof.
  intros FQ FC T E C H. assert (UP := u_pos). assert (TP := tiny_pos).
  assert (B : Rabs (val q + val c) <= Rabs t + e + 1).
  { replace (val q + val c) with (t + ((val q - t) + val c)) by ring. eapply Rle_trans; [apply Rabs_triang|].
    assert (Rabs (val q - t + val c) <= e + 1); [|lra]. eapply Rle_trans; [apply Rabs_triang|]. rewrite (Rabs_pos_eq (val c)); lra. }
  destruct (add_ok q c FQ FC) as [F V]; [unfold huge; lra|]. split; [exact F|]. rewrite V.
  assert (K := fl_err (val q + val c)).
  replace (fl (val q + val c) - (t + val c)) with ((fl (val q + val c) - (val q + val c)) + (val q - t)) by ring.
  eapply Rle_trans; [apply Rabs_triang|]. assert (u * Rabs (val q + val c) <= u * (Rabs t + e + 1)) by (apply Rmult_le_compat_l; lra). lra.
Qed.

(** ** computed heights *)
Lemma size_pos h : 0 <= size h.
Proof. induction h as [n d|a IHa b IHb|a IHa b IHb]; cbn; [apply Rabs_pos|lra|lra]. Qed.
Lemma exact_size h : Rabs (exact h) <= size h.
Proof.
  induction h as [n d|a IHa b IHb|a IHa b IHb]; cbn; [lra| |].
  - eapply Rle_trans; [apply Rabs_triang|]. lra.
  - unfold Rminus. eapply Rle_trans; [apply Rabs_triang|]. rewrite Rabs_Ropp. lra.
Qed.
Lemma terms_pos h : (1 <= terms h)%nat. Proof. induction h; cbn; lia. Qed.
Definition small_size : R := 1000000000000000000000000.
(** one more rounding *)
Lemma step (s : R -> R -> R) va vb ea eb sa sb (ta tb : nat) :
  (forall x y, s x y = x + y) \/ (forall x y, s x y = x - y) ->
  (1 <= ta)%nat -> (1 <= tb)%nat -> (ta + tb <= 16)%nat -> Rabs ea <= sa -> Rabs eb <= sb -> sa + sb <= small_size ->
  Rabs (va - ea) <= 2 * INR ta * u * sa + (2 * INR ta - 2) * tiny -> Rabs (vb - eb) <= 2 * INR tb * u * sb + (2 * INR tb - 2) * tiny ->
  Rabs (s va vb) <= huge /\ Rabs (fl (s va vb) - s ea eb) <= 2 * INR (ta + tb) * u * (sa + sb) + (2 * INR (ta + tb) - 2) * tiny.
Proof.
  assert (UP := u_pos). assert (TP := tiny_pos).
  intros S PA PB LE EA EB SS VA VB.
  assert (IA : 1 <= INR ta) by (change 1 with (INR 1); apply le_INR; lia).
  assert (IB : 1 <= INR tb) by (change 1 with (INR 1); apply le_INR; lia).
  assert (IAB : INR (ta + tb) <= 16) by (replace 16 with (INR 16) by (simpl; lra); apply le_INR; lia). rewrite plus_INR in *.
  assert (PSA : 0 <= sa) by (eapply Rle_trans; [apply Rabs_pos|exact EA]). assert (PSB : 0 <= sb) by (eapply Rle_trans; [apply Rabs_pos|exact EB]).
  assert (D : Rabs (s va vb - s ea eb) <= 2 * INR ta * u * sa + 2 * INR tb * u * sb + (2 * (INR ta + INR tb) - 4) * tiny).
  { replace (s va vb - s ea eb) with (s (va - ea) (vb - eb)) by (destruct S as [S|S]; rewrite !S; ring).
    assert (X : Rabs (s (va - ea) (vb - eb)) <= Rabs (va - ea) + Rabs (vb - eb)).
    { destruct S as [S|S]; rewrite S; [apply Rabs_triang|]. unfold Rminus at 1. eapply Rle_trans; [apply Rabs_triang|]. rewrite Rabs_Ropp. lra. }
    lra. }
  assert (M : Rabs (s ea eb) <= sa + sb).
  { assert (X : Rabs (s ea eb) <= Rabs ea + Rabs eb).
    { destruct S as [S|S]; rewrite S; [apply Rabs_triang|]. unfold Rminus. eapply Rle_trans; [apply Rabs_triang|]. rewrite Rabs_Ropp. lra. }
    lra. }
  assert (N1 : 2 * INR ta * u * sa <= 30 * u * sa).
  { apply Rmult_le_compat_r; [exact PSA|]. apply Rmult_le_compat_r; lra. }
  assert (N2 : 2 * INR tb * u * sb <= 30 * u * sb).
  { apply Rmult_le_compat_r; [exact PSB|]. apply Rmult_le_compat_r; lra. }
  assert (N3 : (2 * (INR ta + INR tb) - 4) * tiny <= 28 * tiny) by (apply Rmult_le_compat_r; lra).
  assert (W : Rabs (s va vb) <= (sa + sb) * (1 + 30 * u) + 28 * tiny).
  { replace (s va vb) with (s ea eb + (s va vb - s ea eb)) by ring. eapply Rle_trans; [apply Rabs_triang|]. lra. }
  split.
  { eapply Rle_trans; [exact W|]. unfold huge, small_size, u, tiny in *. lra. }
  assert (K := fl_err (s va vb)).
  replace (fl (s va vb) - s ea eb) with ((fl (s va vb) - s va vb) + (s va vb - s ea eb)) by ring.
  eapply Rle_trans; [apply Rabs_triang|].
  assert (K2 : u * Rabs (s va vb) <= 2 * u * (sa + sb) + / 10 * tiny).
  { eapply Rle_trans; [apply Rmult_le_compat_l; [lra|exact W]|]. unfold u, tiny. lra. }
  assert (L1 : 2 * INR ta * u * sa + 2 * u * sa <= 2 * (INR ta + INR tb) * u * sa).
  { assert (0 <= u * sa) by (apply Rmult_le_pos; lra). nra. }
  assert (L2 : 2 * INR tb * u * sb + 2 * u * sb <= 2 * (INR ta + INR tb) * u * sb).
  { assert (0 <= u * sb) by (apply Rmult_le_pos; lra). nra. }
  lra.
Qed.
Lemma height_err h : written h -> (terms h <= 16)%nat -> size h <= small_size ->
  is_finite (computed h) = true /\ Rabs (val (computed h) - exact h) <= 2 * INR (terms h) * u * size h + (2 * INR (terms h) - 2) * tiny.
Proof.
  assert (UP := u_pos). assert (TP := tiny_pos).
  induction h as [n d|a IHa b IHb|a IHa b IHb]; cbn [computed exact size terms written].
  - intros S _ _. split; [apply lit_ok; exact S|]. eapply Rle_trans; [apply lit_err; exact S|].
    replace (2 * INR 1 - 2) with 0 by (simpl; lra). replace (2 * INR 1) with 2 by (simpl; lra).
    assert (0 <= u * Rabs (IZR n / IZR d)) by (apply Rmult_le_pos; [lra|apply Rabs_pos]). lra.
  - intros [WA WB] T S. assert (PA := size_pos a). assert (PB := size_pos b). assert (TA := terms_pos a). assert (TB := terms_pos b).
    destruct (IHa WA ltac:(lia) ltac:(lra)) as [FA EA]. destruct (IHb WB ltac:(lia) ltac:(lra)) as [FB EB].
    destruct (step Rplus (val (computed a)) (val (computed b)) (exact a) (exact b) (size a) (size b) (terms a) (terms b)) as [H E];
      try assumption; try apply exact_size; [left; reflexivity|].
    destruct (add_ok _ _ FA FB H) as [F V]. split; [exact F|]. rewrite V. exact E.
  - intros [WA WB] T S. assert (PA := size_pos a). assert (PB := size_pos b). assert (TA := terms_pos a). assert (TB := terms_pos b).
    destruct (IHa WA ltac:(lia) ltac:(lra)) as [FA EA]. destruct (IHb WB ltac:(lia) ltac:(lra)) as [FB EB].
    destruct (step Rminus (val (computed a)) (val (computed b)) (exact a) (exact b) (size a) (size b) (terms a) (terms b)) as [H E];
      try assumption; try apply exact_size; [right; reflexivity|].
    destruct (sub_ok _ _ FA FB H) as [F V]. split; [exact F|]. rewrite V. exact E.
Qed.

(** ** z2norm *)
Lemma millionth : is_finite (lit 1 1000000) = true /\ Rabs (val (lit 1 1000000) - / 1000000) <= / 1000000000000.
Proof.
  assert (S : short 1 1000000) by (unfold short; lia). split; [apply lit_ok; exact S|].
  assert (E := lit_err 1 1000000 S). replace (1 / 1000000) with (/ 1000000) in E by lra.
  eapply Rle_trans; [exact E|]. rewrite Rabs_pos_eq by lra. unfold u. lra.
Qed.
(** the number whose floor is taken: for a height that is known up to half a millionth of a unit *)
Lemma z2norm_value dbu D (z : float) t : unit_of dbu D -> is_finite z = true -> Rabs t <= 67108864 -> Rabs (val z - t * D) <= / 2500000 * D / 2 ->
  exists s, z2norm dbu z = Some (Zfloor s) /\ Rabs (s - (t + / 1000000)) <= / 2000000.
Proof.
  intros U FZ T H. assert (UP := u_pos). assert (TP := tiny_pos).
  assert (H' : Rabs (val z - t * D) <= / 5000000 * D) by lra.
  destruct (quotient dbu D z t (/ 5000000) U FZ) as [FQ Q]; [lra|lra|exact H'|].
  destruct millionth as [FC C]. apply abs_le in C.
  set (e := 3 * u * Rabs t + 2 * / 5000000 + 3 * tiny) in *.
  assert (E : 0 <= e <= / 2200000). { assert (0 <= Rabs t) by apply Rabs_pos. unfold e, u, tiny. split; lra. }
  destruct (add_small (fdiv z dbu) (lit 1 1000000) t e FQ FC) as [F A]; [lra|lra|lra|exact Q|].
  exists (val (fadd (fdiv z dbu) (lit 1 1000000))). split; [unfold z2norm; now apply floor_ok|].
  apply abs_le in A. apply abs_le. assert (0 <= Rabs t) by apply Rabs_pos.
  assert (u * (Rabs t + e + 1) <= / 100000000) by (unfold u; lra). unfold tiny in *. lra.
Qed.
Lemma z2norm_grid dbu D (z : float) k : unit_of dbu D -> is_finite z = true -> Rabs (IZR k) <= 67108864 ->
  Rabs (val z - IZR k * D) <= / 2500000 * D / 2 -> z2norm dbu z = Some k.
Proof.
  intros U FZ T H. destruct (z2norm_value dbu D z (IZR k) U FZ T H) as (s & -> & B). f_equal. apply Zfloor_imp. apply abs_le in B.
  rewrite plus_IZR. lra.
Qed.
Lemma height_near n d h : usual n d h -> is_finite (computed h) = true /\
  Rabs (val (computed h) - exact h) <= / 2500000 * (IZR n / IZR d) / 2.
Proof.
  intros (P & S & W & T & Z). assert (UP := u_pos). assert (TP := tiny_pos).
  assert (SD := S). destruct SD as (A & B & C).
  assert (D1 : / 9007199254740992 <= IZR n / IZR d).
  { unfold Rdiv. assert (1 <= IZR n) by (apply IZR_le; lia). assert (1 <= IZR d) by (apply IZR_le; lia).
    assert (/ 9007199254740992 <= / IZR d) by (apply Rinv_le; [lra|apply IZR_le; lia]).
    apply Rle_trans with (1 * / IZR d); [lra|]. apply Rmult_le_compat_r; lra. }
  assert (D2 : IZR n / IZR d <= 9007199254740992).
  { eapply Rle_trans; [apply Rle_abs|]. now apply quot_bound. }
  destruct (height_err h W ltac:(lia)) as [F E]; [unfold small_size; lra|]. split; [exact F|]. eapply Rle_trans; [exact E|].
  assert (IT : 1 <= INR (terms h) <= 12).
  { split; [change 1 with (INR 1); apply le_INR; apply terms_pos|]. replace 12 with (INR 12) by (simpl; lra). now apply le_INR. }
  assert (SP := size_pos h).
  assert (X : 2 * INR (terms h) * u * size h <= 24 * u * size h) by (apply Rmult_le_compat_r; [exact SP|]; apply Rmult_le_compat_r; lra).
  assert (Y : (2 * INR (terms h) - 2) * tiny <= 30 * tiny) by (apply Rmult_le_compat_r; lra).
  assert (24 * u * size h <= 24 * u * (67108864 * (IZR n / IZR d))) by (apply Rmult_le_compat_l; lra).
  unfold u, tiny in *. lra.
Qed.
