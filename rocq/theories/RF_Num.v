(** One elimination in floating point: the error of every conductance. *)
From Coq Require Import ZArith Reals Lra Lia Psatz List.
From Flocq Require Import Core.Core IEEE754.BinarySingleNaN.
From Verif Require Import PyBase FP_Model FP_Spec FP_Proofs FC_Model FC_Spec FC_Proofs FC_Caps RN_Model RN_Spec RN_Inv RN_Ops RN_Elim RN_All RF_Model RF_Spec RF_Proofs.
Import ListNotations.
Local Close Scope Qc_scope.
Local Open Scope R_scope.

(** ** sums over lists *)
Lemma rsum_nonneg {A} (f : A -> R) l : (forall x, In x l -> 0 <= f x) -> 0 <= rsum f l.
Proof. induction l as [|a l IH]; cbn; intros H; [lra|]. assert (0 <= f a) by (apply H; now left). assert (0 <= rsum f l) by (apply IH; intros; apply H; now right). unfold rsum in *. lra. Qed.
Lemma rsum_le {A} (f h : A -> R) l : (forall x, In x l -> f x <= h x) -> rsum f l <= rsum h l.
Proof. induction l as [|a l IH]; cbn; intros H; [lra|]. assert (f a <= h a) by (apply H; now left). assert (rsum f l <= rsum h l) by (apply IH; intros; apply H; now right). unfold rsum in *. lra. Qed.
Lemma rsum_ext {A} (f h : A -> R) l : (forall x, In x l -> f x = h x) -> rsum f l = rsum h l.
Proof. intros H. apply Rle_antisym; apply rsum_le; intros x I; rewrite (H x I); lra. Qed.
Lemma rsum_in {A} (f : A -> R) l x : (forall y, In y l -> 0 <= f y) -> In x l -> f x <= rsum f l.
Proof.
  induction l as [|a l IH]; intros H I; [destruct I|]; destruct I as [-> | I]; cbn.
  - assert (0 <= rsum f l) by (apply rsum_nonneg; intros; apply H; now right). unfold rsum in *. lra.
  - assert (0 <= f a) by (apply H; now left). assert (f x <= rsum f l) by (apply IH; [intros; apply H; now right|exact I]). unfold rsum in *. lra.
Qed.
Lemma rsum_plus {A} (f h : A -> R) l : rsum (fun x => f x + h x) l = rsum f l + rsum h l.
Proof. induction l as [|a l IH]; cbn; [lra|]. unfold rsum in *. rewrite IH. ring. Qed.
Lemma rsum_scal {A} c (f : A -> R) l : rsum (fun x => c * f x) l = c * rsum f l.
Proof. induction l as [|a l IH]; cbn; [ring|]. unfold rsum in *. rewrite IH. ring. Qed.
Lemma rsum_const {A} c (l : list A) : rsum (fun _ => c) l = INR (List.length l) * c.
Proof. induction l as [|a l IH]; [cbn; ring|]. change (rsum (fun _ => c) (a :: l)) with (c + rsum (fun _ => c) l). rewrite IH. cbn [List.length]. rewrite S_INR. ring. Qed.
Lemma rsum_remove (f : nid -> R) (l : list nid) i : NoDup l -> In i l -> rsum f l = f i + rsum f (remove Nat.eq_dec i l).
Proof.
  induction l as [|a l IH]; intros N I; [destruct I|]. inversion N; subst. cbn [remove]. destruct (Nat.eq_dec i a) as [-> | Ne].
  - now rewrite notin_remove by assumption.
  - destruct I as [-> | I]; [congruence|]. change (rsum f (a :: l)) with (f a + rsum f l). change (rsum f (a :: remove Nat.eq_dec i l)) with (f a + rsum f (remove Nat.eq_dec i l)). rewrite IH by assumption. ring.
Qed.
Lemma rsum_map {A B} (f : B -> R) (k : A -> B) l : rsum f (map k l) = rsum (fun x => f (k x)) l.
Proof. induction l as [|a l IH]; cbn; [reflexivity|]. unfold rsum in *. now rewrite IH. Qed.
Lemma rsum_support (f : nid -> R) (l m : list nid) : NoDup l -> NoDup m -> incl m l -> (forall x, In x l -> ~ In x m -> f x = 0) -> rsum f l = rsum f m.
Proof.
  revert l; induction m as [|a m IH]; intros l Nl Nm Im Z.
  - cbn. rewrite (rsum_ext f (fun _ => 0)); [rewrite rsum_const; ring|]. intros x Ix. now apply Z.
  - assert (Ia : In a l) by (apply Im; now left). inversion Nm; subst. rewrite (rsum_remove f l a Nl Ia). change (rsum f (a :: m)) with (f a + rsum f m). f_equal. apply IH; try assumption.
    + clear -Nl. induction Nl as [|y l N Nl IH]; cbn; [constructor|]. destruct (Nat.eq_dec a y); [exact IH|]. constructor; [|exact IH]. intros J. now apply in_remove in J.
    + intros x Ix. assert (x <> a) by (intros ->; contradiction). apply in_in_remove; [exact H|apply Im; now right].
    + intros x Ix Nx. apply in_remove in Ix. apply Z; [tauto|]. intros [-> | J]; tauto.
Qed.

(** ** rounding *)
Lemma fl_nonneg x : 0 <= x -> 0 <= fl x. Proof. intros H. rewrite <- fl_0. now apply fl_mono. Qed.
Lemma one_rel x y : 0 <= x -> Rabs (y - x) <= u * x -> rel 1 y x.
Proof.
  intros P H. apply abs_le in H. assert (UP := u_pos). unfold rel. simpl. rewrite Rmult_1_r. split; [|unfold w; nra].
  apply Rle_trans with ((1 - u) * x); [|lra]. unfold Rdiv. rewrite Rmult_comm. apply Rmult_le_compat_r; [exact P|].
  apply Rmult_le_reg_r with w; [assert (1 <= w) by apply w_ge1; lra|]. rewrite Rinv_l by (assert (1 <= w) by apply w_ge1; lra). unfold w, u. lra.
Qed.
Definition fine (x : float) : Prop := is_finite x = true /\ 0 <= val x.
Lemma zero_fine : fine (of_int 0). Proof. destruct (of_int_ok 0 ltac:(lia)) as [F V]. split; [exact F|]. rewrite V. lra. Qed.
Lemma val_0 : val (of_int 0) = 0. Proof. now destruct (of_int_ok 0 ltac:(lia)). Qed.
Lemma add_rel x y k r : fine x -> fine y -> val x + val y <= 10 ^ 200 -> 0 <= r -> rel k (val x) r -> fine (fadd x y) /\ rel (S k) (val (fadd x y)) (r + val y).
Proof.
  intros [FX PX] [FY PY] B P R. destruct (add_fits x y FX FY) as [F V]; [rewrite Rabs_pos_eq by lra; exact B|]. split; [split; [exact F|rewrite V; apply fl_nonneg; lra]|].
  rewrite V. assert (E := fl_plus x y). rewrite (Rabs_pos_eq (val x + val y)) in E by lra. change (S k) with (1 + k)%nat. apply (rel_trans 1 k _ (val x + val y)); [lra|apply one_rel; lra|].
  apply rel_add; [exact R|]. apply (rel_le 0); [exact PY|lia|now apply rel_refl].
Qed.
Lemma sum_rel l : forall acc k r, fine acc -> Forall fine l -> 0 <= r -> rel k (val acc) r -> w ^ (k + List.length l) <= 2 -> r + rsum (@B2R prec emax) l <= 10 ^ 150 ->
  fine (fold_left fadd l acc) /\ rel (k + List.length l) (val (fold_left fadd l acc)) (r + rsum (@B2R prec emax) l).
Proof.
  induction l as [|x l IH]; intros acc k r A F P R W B.
  - cbn. rewrite Nat.add_0_r, Rplus_0_r. now split.
  - inversion F as [|? ? X F']; subst. cbn [fold_left List.length] in *. change (rsum (@B2R prec emax) (x :: l)) with (val x + rsum (@B2R prec emax) l) in *.
    assert (L : 0 <= rsum (@B2R prec emax) l) by (apply rsum_nonneg; intros y Y; rewrite Forall_forall in F'; exact (proj2 (F' y Y))).
    assert (PX := proj2 X). assert (WK : w ^ k <= 2) by (eapply Rle_trans; [|exact W]; apply w_le; lia).
    assert (BA : val acc <= 2 * 10 ^ 150).
    { destruct R as [_ R]. eapply Rle_trans; [exact R|]. rewrite Rmult_comm. assert (1 <= w ^ k) by apply w_pos. apply Rmult_le_compat; lra. }
    destruct (add_rel acc x k r A X) as [A' R']; try assumption.
    { assert (T := ten_le 151 200 ltac:(lia)). replace (10 ^ 151) with (10 * 10 ^ 150) in T by (simpl; ring). lra. }
    destruct (IH (fadd acc x) (S k) (r + val x) A' F') as [Z1 Z2]; [lra|exact R'|now replace (S k + List.length l)%nat with (k + S (List.length l))%nat by lia|lra|].
    split; [exact Z1|]. replace (k + S (List.length l))%nat with (S k + List.length l)%nat by lia. replace (r + (val x + rsum (@B2R prec emax) l)) with (r + val x + rsum (@B2R prec emax) l) by ring. exact Z2.
Qed.

(** a relative and a small absolute error *)
Definition tiny_g : R := / 10 ^ 280.
Definition relabs (k : nat) (h x r : R) : Prop := r / w ^ k - h <= x <= r * w ^ k + h.
Lemma relabs_le j k h x r : 0 <= r -> (j <= k)%nat -> relabs j h x r -> relabs k h x r.
Proof.
  intros P L [A B]. assert (X := w_le j k L). assert (1 <= w ^ j) by apply w_pos. split.
  - eapply Rle_trans; [|exact A]. apply Rplus_le_compat_r. apply Rmult_le_compat_l; [exact P|]. apply Rinv_le; lra.
  - eapply Rle_trans; [exact B|]. apply Rplus_le_compat_r. now apply Rmult_le_compat_l.
Qed.
Lemma tiny_small : 3 * 100000000000 * eta + eta <= tiny_g /\ 0 < tiny_g.
Proof.
  assert (P := ten_pos 280). split; [|now apply Rinv_0_lt_compat]. unfold tiny_g, eta. replace 300%nat with (20 + 280)%nat by reflexivity. rewrite pow_add, Rinv_mult.
  assert (0 < / 10 ^ 280) by (now apply Rinv_0_lt_compat). assert (/ 10 ^ 20 <= / 1000000000000000) by (apply Rinv_le; [lra|]; simpl; lra). nra.
Qed.
Lemma share_ok x y s d S : fine x -> fine y -> fine s -> val x <= 10 ^ 75 -> val y <= 10 ^ 75 -> / 100000000000 <= val s -> 0 < S -> rel d (val s) S ->
  fine (fdiv (fmul x y) s) /\ relabs (d + 2) tiny_g (val (fdiv (fmul x y) s)) (val x * val y / S).
Proof.
  intros [FX PX] [FY PY] [FS PS] BX BY LS P R. set (X := val x * val y). assert (X0 : 0 <= X) by (now apply Rmult_le_pos).
  assert (XB : X <= 10 ^ 150). { replace 150%nat with (75 + 75)%nat by reflexivity. rewrite pow_add. apply Rmult_le_compat; assumption. }
  destruct (mul_fits x y FX FY) as [F1 V1]. { fold X. rewrite Rabs_pos_eq by exact X0. eapply Rle_trans; [exact XB|]. apply ten_le. lia. }
  fold X in V1. set (p := val (fmul x y)) in *. assert (E1 := fl_e X). rewrite (Rabs_pos_eq X) in E1 by exact X0. rewrite <- V1 in E1. assert (p0 : 0 <= p) by (rewrite V1; now apply fl_nonneg).
  assert (UP := u_pos). assert (EP := eta_pos). destruct tiny_small as [TS TP]. assert (ES : eta <= 1). { unfold eta. assert (1 <= 10 ^ 300) by apply ten_ge1. rewrite <- Rinv_1. apply Rinv_le; lra. }
  assert (IS : 0 < / val s <= 100000000000). { split; [apply Rinv_0_lt_compat; lra|]. replace 100000000000 with (/ / 100000000000) by (rewrite Rinv_inv; reflexivity). apply Rinv_le; lra. }
  apply abs_le in E1. assert (UB : u <= / 1000) by (unfold u; lra).
  assert (PB : p <= 2 * 10 ^ 150). { assert (1 <= 10 ^ 150) by apply ten_ge1. assert (u * X <= / 1000 * X) by (apply Rmult_le_compat_r; lra). lra. }
  assert (Q0 : 0 <= p / val s) by (apply Rmult_le_pos; lra).
  destruct (div_fits (fmul x y) s F1) as [F2 V2]; [lra| |].
  { fold p. rewrite Rabs_pos_eq by exact Q0. apply Rle_trans with (2 * 10 ^ 150 * 100000000000); [apply Rmult_le_compat; lra|].
    replace 200%nat with (50 + 150)%nat by reflexivity. rewrite (pow_add 10 50 150). assert (0 < 10 ^ 150) by apply ten_pos. assert (1000000000000 <= 10 ^ 50) by (apply Rle_trans with (10 ^ 12); [simpl; lra|apply ten_le; lia]). nra. }
  fold p in V2. split; [split; [exact F2|rewrite V2; now apply fl_nonneg]|]. rewrite V2.
  assert (E2 := fl_e (p / val s)). rewrite (Rabs_pos_eq (p / val s)) in E2 by exact Q0. apply abs_le in E2.
  assert (RI := rel_inv d (val s) S P R). assert (IP : 0 < / S) by (now apply Rinv_0_lt_compat).
  assert (W2 : 1 <= w ^ 2) by apply w_pos. assert (WD : 1 <= w ^ d) by apply w_pos.
  destruct RI as [R1 R2]. unfold relabs. rewrite pow_add. set (z := / val s) in *. unfold Rdiv in *. fold z in E2, Q0 |- *.
  assert (Z1 : X * (/ S * / w ^ d) <= X * z) by (apply Rmult_le_compat_l; assumption). assert (Z2 : X * z <= X * (/ S * w ^ d)) by (apply Rmult_le_compat_l; assumption).
  assert (Xz : 0 <= X * z) by (apply Rmult_le_pos; lra).
  assert (pz1 : p * z <= (1 + u) * (X * z) + eta * 100000000000). { assert (p * z <= (X + u * X + eta) * z) by (apply Rmult_le_compat_r; lra). assert (eta * z <= eta * 100000000000) by (apply Rmult_le_compat_l; lra). lra. }
  assert (pz2 : (1 - u) * (X * z) - eta * 100000000000 <= p * z). { assert ((X - u * X - eta) * z <= p * z) by (apply Rmult_le_compat_r; lra). assert (eta * z <= eta * 100000000000) by (apply Rmult_le_compat_l; lra). lra. }
  split.
  - apply Rle_trans with ((1 - u) * (p * z) - eta); [|lra].
    apply Rle_trans with ((1 - u) * ((1 - u) * (X * z) - eta * 100000000000) - eta); [|apply Rplus_le_compat_r; apply Rmult_le_compat_l; lra].
    assert (A : / w ^ 2 <= (1 - u) * (1 - u)). { apply Rmult_le_reg_r with (w ^ 2); [lra|]. rewrite Rinv_l by lra. unfold w, u. lra. }
    assert (B : X * / S * / (w ^ d * w ^ 2) <= (1 - u) * (1 - u) * (X * z)).
    { rewrite Rinv_mult. replace (X * / S * (/ w ^ d * / w ^ 2)) with (/ w ^ 2 * (X * (/ S * / w ^ d))) by ring. apply Rmult_le_compat; try assumption; [left; apply Rinv_0_lt_compat; lra|].
      apply Rmult_le_pos; [exact X0|]. apply Rmult_le_pos; [lra|]. left. apply Rinv_0_lt_compat. lra. }
    assert ((1 - u) * (eta * 100000000000) <= eta * 100000000000) by nra. lra.
  - apply Rle_trans with ((1 + u) * (p * z) + eta); [lra|].
    apply Rle_trans with ((1 + u) * ((1 + u) * (X * z) + eta * 100000000000) + eta); [apply Rplus_le_compat_r; apply Rmult_le_compat_l; lra|].
    assert (A : (1 + u) * (1 + u) <= w ^ 2) by (unfold w, u; lra).
    assert (B : (1 + u) * (1 + u) * (X * z) <= X * / S * (w ^ d * w ^ 2)).
    { replace (X * / S * (w ^ d * w ^ 2)) with (w ^ 2 * (X * (/ S * w ^ d))) by ring. apply Rmult_le_compat; try assumption. nra. }
    assert ((1 + u) * (eta * 100000000000) <= 2 * (eta * 100000000000)) by nra. lra.
Qed.
