(** Rounding errors of capacitances, continued: sums. *)
From Coq Require Import ZArith Reals Lra Lia Psatz List Bool.
From Flocq Require Import Core.Core IEEE754.BinarySingleNaN.
From Verif Require Import FP_Model FP_Spec FP_Proofs FC_Model FC_Spec FC_Proofs FC_Caps.
Import ListNotations.
Local Open Scope R_scope.

Lemma acc_add e x y r q s t : acc e x r s -> acc e y q t -> 0 <= e <= 1 / 10 -> s + t <= 10 ^ 150 -> acc (e + 2 * u) (fadd x y) (r + q) (s + t).
Proof.
  intros A B E T. assert (PS := acc_scale _ _ _ _ A). assert (PT := acc_scale _ _ _ _ B).
  assert (XA := acc_val _ _ _ _ A). assert (XB := acc_val _ _ _ _ B). destruct A as (FA & EA & BA), B as (FB & EB & BB). assert (UP := u_pos).
  assert (V : Rabs (val x + val y) <= 2 * (s + t)). { eapply Rle_trans; [apply Rabs_triang|]. nra. }
  destruct (add_fits x y FA FB) as [F VF].
  { eapply Rle_trans; [exact V|]. replace 200%nat with (150 + 50)%nat by reflexivity. rewrite pow_add. assert (T2 := ten_le 1 50 ltac:(lia)). rewrite pow_1 in T2. assert (T3 := ten_pos 150). nra. }
  split; [exact F|]. split; [|eapply Rle_trans; [apply Rabs_triang|lra]]. rewrite VF. assert (R := fl_plus x y).
  replace (fl (val x + val y) - (r + q)) with ((fl (val x + val y) - (val x + val y)) + ((val x - r) + (val y - q))) by ring.
  eapply Rle_trans; [apply Rabs_triang|]. assert (Rabs (val x - r + (val y - q)) <= e * s + e * t) by (eapply Rle_trans; [apply Rabs_triang|lra]).
  assert (u * Rabs (val x + val y) <= u * (2 * (s + t))) by (apply Rmult_le_compat_l; lra). lra.
Qed.
Lemma rsum_app l m : rsum (l ++ m) = rsum l + rsum m.
Proof. unfold rsum. induction l as [|x l IH]; cbn [app fold_right]; [ring|]. rewrite IH. ring. Qed.
Lemma rsum_concat {A} (f : A -> R) (l : list (list A)) : rsum (map f (concat l)) = rsum (map (fun x => rsum (map f x)) l).
Proof. induction l as [|x l IH]; [reflexivity|]. cbn [concat map]. rewrite map_app, rsum_app, IH. reflexivity. Qed.
Lemma rsum_nonneg l : Forall (fun x => 0 <= x) l -> 0 <= rsum l.
Proof. unfold rsum. induction 1 as [|x l H _ IH]; cbn [fold_right]; lra. Qed.
Lemma rsum_le_in l x : Forall (fun x => 0 <= x) l -> In x l -> x <= rsum l.
Proof.
  induction 1 as [|y l H HL IH]; intros I; [destruct I|]. assert (N := rsum_nonneg l HL). cbn. fold (rsum l). destruct I as [->|I]; [lra|]. specialize (IH I). lra.
Qed.
Lemma acc_zero e : acc e (of_int 0) 0 0.
Proof. destruct (of_int_ok 0 ltac:(lia)) as [F V]. split; [exact F|]. rewrite V. rewrite Rminus_0_r, Rabs_R0, Rmult_0_r. split; lra. Qed.

Section Lists.
Context {A : Type} (fx : A -> float) (fr fs : A -> R).
Lemma scale_nonneg e (l : list A) : Forall (fun i => acc e (fx i) (fr i) (fs i)) l -> Forall (fun x => 0 <= x) (map fs l).
Proof. intros H. rewrite Forall_map. eapply Forall_impl; [|exact H]. intros i. apply acc_scale. Qed.
Lemma acc_fold e (l : list A) : forall k a r s, 0 <= e -> e + 2 * INR (k + length l) * u <= 1 / 10 -> acc (e + 2 * INR k * u) a r s ->
  Forall (fun i => acc e (fx i) (fr i) (fs i)) l -> s + rsum (map fs l) <= 10 ^ 150 ->
  acc (e + 2 * INR (k + length l) * u) (fold_left fadd (map fx l) a) (r + rsum (map fr l)) (s + rsum (map fs l)).
Proof.
  assert (UP := u_pos).
  induction l as [|i l IH]; intros k a r s E B X F T; cbn [map fold_left length rsum fold_right] in *.
  - rewrite Nat.add_0_r, !Rplus_0_r. exact X.
  - inversion F as [|? ? FI FL]; subst. fold (rsum (map fs l)) in *. fold (rsum (map fr l)) in *. assert (N := rsum_nonneg _ (scale_nonneg e l FL)).
    assert (KL : INR (k + S (length l)) = INR k + 1 + INR (length l)) by (rewrite plus_INR, S_INR; ring). assert (0 <= INR k) by apply pos_INR. assert (0 <= INR (length l)) by apply pos_INR.
    rewrite KL in B. assert (0 <= INR k * u) by (apply Rmult_le_pos; lra). assert (0 <= INR (length l) * u) by (apply Rmult_le_pos; lra).
    assert (Y := acc_add _ _ _ _ _ _ _ X (acc_le e (e + 2 * INR k * u) _ _ _ ltac:(lra) FI) ltac:(lra) ltac:(lra)).
    replace (k + S (length l))%nat with (S k + length l)%nat by lia. rewrite <- !Rplus_assoc. apply IH; [exact E| | |exact FL|lra].
    + rewrite plus_INR, S_INR. lra.
    + rewrite S_INR. replace (e + 2 * (INR k + 1) * u) with (e + 2 * INR k * u + 2 * u) by ring. exact Y.
Qed.
Lemma acc_added e n (l : list A) : 0 <= e -> (length l <= n)%nat -> e + 2 * INR n * u <= 1 / 10 ->
  Forall (fun i => acc e (fx i) (fr i) (fs i)) l -> rsum (map fs l) <= 10 ^ 150 ->
  acc (e + 2 * INR n * u) (added (map fx l)) (rsum (map fr l)) (rsum (map fs l)).
Proof.
  intros E N B F T. assert (UP := u_pos). assert (NL : INR (length l) <= INR n) by now apply le_INR.
  assert (NU : INR (length l) * u <= INR n * u) by (apply Rmult_le_compat_r; lra).
  assert (X := acc_fold e l 0 (of_int 0) 0 0 E). cbn [Nat.add] in X. rewrite !Rplus_0_l in X.
  eapply acc_le; [|apply X; [lra|apply acc_zero|exact F|exact T]]. lra.
Qed.
(** the compensated sum of Python: whatever the compensation is, it is small *)
Lemma comp_small (f x t : float) M : is_finite f = true -> is_finite x = true -> is_finite t = true -> val t = fl (val f + val x) -> Rabs (val f) + Rabs (val x) <= M -> M <= 10 ^ 151 ->
  is_finite (fadd (fsub f t) x) = true /\ Rabs (val (fadd (fsub f t) x)) <= 4 * u * M.
Proof.
  intros FF FX FT V L B. assert (UP := u_pos). assert (P1 := Rabs_pos (val f)). assert (P2 := Rabs_pos (val x)). assert (R := fl_plus f x). rewrite <- V in R.
  assert (T1 : Rabs (val f + val x) <= M) by (eapply Rle_trans; [apply Rabs_triang|lra]).
  assert (R1 : Rabs (val t - (val f + val x)) <= u * M) by (eapply Rle_trans; [exact R|apply Rmult_le_compat_l; lra]).
  assert (T2 : Rabs (val f - val t) <= 3 / 2 * M).
  { replace (val f - val t) with (- (val t - (val f + val x)) - val x) by ring. unfold Rminus at 1. eapply Rle_trans; [apply Rabs_triang|]. rewrite !Rabs_Ropp.
    assert (u * M <= / 2 * M) by (apply Rmult_le_compat_r; [lra|unfold u; lra]). lra. }
  assert (BIG : 2 * M <= 10 ^ 200). { replace 200%nat with (151 + 49)%nat by reflexivity. rewrite pow_add. assert (Q2 := ten_le 1 49 ltac:(lia)). rewrite pow_1 in Q2. assert (Q3 := ten_pos 151). nra. }
  destruct (sub_fits f t FF FT) as [FS VS]; [lra|]. assert (R2 := sub_plus f t). rewrite <- VS in R2.
  assert (R3 : Rabs (val (fsub f t) - (val f - val t)) <= u * (3 / 2 * M)) by (eapply Rle_trans; [exact R2|apply Rmult_le_compat_l; lra]).
  assert (UM : 0 <= u * M) by (apply Rmult_le_pos; lra).
  assert (T3 : Rabs (val (fsub f t) + val x) <= 5 / 2 * (u * M)).
  { replace (val (fsub f t) + val x) with ((val (fsub f t) - (val f - val t)) - (val t - (val f + val x))) by ring. unfold Rminus at 1. eapply Rle_trans; [apply Rabs_triang|]. rewrite Rabs_Ropp. lra. }
  assert (UM2 : 5 / 2 * (u * M) <= M) by (assert (u * M <= / 10 * M) by (apply Rmult_le_compat_r; [lra|unfold u; lra]); lra).
  destruct (add_fits (fsub f t) x FS FX) as [FA VA]; [lra|]. split; [exact FA|]. rewrite VA. assert (R4 := fl_plus (fsub f t) x).
  replace (fl (val (fsub f t) + val x)) with ((val (fsub f t) + val x) + (fl (val (fsub f t) + val x) - (val (fsub f t) + val x))) by ring.
  eapply Rle_trans; [apply Rabs_triang|]. assert (u * Rabs (val (fsub f t) + val x) <= 1 * (5 / 2 * (u * M))) by (apply Rmult_le_compat; [lra|apply Rabs_pos|unfold u; lra|exact T3]).
  assert (u * Rabs (val (fsub f t) + val x) <= / 10 * (5 / 2 * (u * M))) by (apply Rmult_le_compat; [lra|apply Rabs_pos|unfold u; lra|exact T3]). lra.
Qed.
Lemma acc_sum_fold e M (l : list A) : forall k f c r s, 0 <= e -> e + 20 * INR (k + length l) * u <= 1 / 10 -> acc (e + 2 * INR k * u) f r s ->
  is_finite c = true -> Rabs (val c) <= 9 * INR k * u * M -> Forall (fun i => acc e (fx i) (fr i) (fs i)) l -> s + rsum (map fs l) <= M -> M <= 10 ^ 150 ->
  let '(f', c') := fold_left sum_step (map fx l) (f, c) in
  acc (e + 2 * INR (k + length l) * u) f' (r + rsum (map fr l)) (s + rsum (map fs l)) /\ is_finite c' = true /\ Rabs (val c') <= 9 * INR (k + length l) * u * M.
Proof.
  assert (UP := u_pos).
  induction l as [|i l IH]; intros k f c r s E B X FC BC F T BM; cbn [map fold_left length rsum fold_right] in *.
  - rewrite Nat.add_0_r, !Rplus_0_r. now split.
  - inversion F as [|? ? FI FL]; subst. fold (rsum (map fs l)) in *. fold (rsum (map fr l)) in *. assert (N := rsum_nonneg _ (scale_nonneg e l FL)).
    assert (KL : INR (k + S (length l)) = INR k + 1 + INR (length l)) by (rewrite plus_INR, S_INR; ring). assert (KP : 0 <= INR k) by apply pos_INR. assert (0 <= INR (length l)) by apply pos_INR.
    rewrite KL in B. assert (0 <= INR k * u) by (apply Rmult_le_pos; lra). assert (0 <= INR (length l) * u) by (apply Rmult_le_pos; lra).
    assert (SS := acc_scale _ _ _ _ X). assert (SI := acc_scale _ _ _ _ FI).
    assert (Y := acc_add _ _ _ _ _ _ _ X (acc_le e (e + 2 * INR k * u) _ _ _ ltac:(lra) FI) ltac:(lra) ltac:(lra)).
    assert (VF := acc_val _ _ _ _ X). assert (VX := acc_val _ _ _ _ FI).
    assert (L : Rabs (val f) + Rabs (val (fx i)) <= 2 * M) by nra. assert (MP : 0 <= M) by lra.
    assert (B2 : 2 * M <= 10 ^ 151). { change (10 ^ 151) with (10 * 10 ^ 150). lra. }
    destruct (add_fits f (fx i) (proj1 X) (proj1 FI)) as [FT VT].
    { eapply Rle_trans; [apply Rabs_triang|]. eapply Rle_trans; [exact L|]. eapply Rle_trans; [exact B2|]. apply ten_le. lia. }
    assert (D : exists d, sum_step (f, c) (fx i) = (fadd f (fx i), fadd c d) /\ is_finite d = true /\ Rabs (val d) <= 8 * u * M).
    { unfold sum_step. destruct (fle (Babs (fx i)) (Babs f)).
      - exists (fadd (fsub f (fadd f (fx i))) (fx i)). split; [reflexivity|].
        destruct (comp_small f (fx i) (fadd f (fx i)) (2 * M) (proj1 X) (proj1 FI) FT VT L B2) as [C1 C2]. split; [exact C1|]. lra.
      - exists (fadd (fsub (fx i) (fadd f (fx i))) f). split; [reflexivity|].
        destruct (comp_small (fx i) f (fadd f (fx i)) (2 * M) (proj1 FI) (proj1 X) FT) as [C1 C2]; [rewrite Rplus_comm; exact VT|lra|exact B2|]. split; [exact C1|]. lra. }
    destruct D as (d & -> & FD & BD).
    assert (UM : 0 <= u * M) by (apply Rmult_le_pos; lra). assert (KS : INR k * u <= / 100) by lra.
    assert (CK : 9 * INR k * u * M <= M). { replace (9 * INR k * u * M) with (9 * (INR k * u) * M) by ring. rewrite <- (Rmult_1_l M) at 2. apply Rmult_le_compat_r; lra. }
    assert (UM1 : 8 * u * M <= M) by (assert (u * M <= / 10 * M) by (apply Rmult_le_compat_r; [lra|unfold u; lra]); lra).
    assert (CD : Rabs (val c + val d) <= 9 * INR k * u * M + 8 * u * M) by (eapply Rle_trans; [apply Rabs_triang|lra]).
    destruct (add_fits c d FC FD) as [FCD VCD].
    { eapply Rle_trans; [exact CD|]. apply Rle_trans with (10 ^ 151); [lra|]. apply ten_le. lia. }
    assert (BCD : Rabs (val (fadd c d)) <= 9 * INR (S k) * u * M).
    { rewrite VCD. assert (R := fl_plus c d).
      replace (fl (val c + val d)) with ((val c + val d) + (fl (val c + val d) - (val c + val d))) by ring. eapply Rle_trans; [apply Rabs_triang|].
      assert (u * Rabs (val c + val d) <= u * M * (9 * (INR k * u) + 8 * u)).
      { replace (u * M * (9 * (INR k * u) + 8 * u)) with (u * (9 * INR k * u * M + 8 * u * M)) by ring. apply Rmult_le_compat_l; lra. }
      assert (u * M * (9 * (INR k * u) + 8 * u) <= u * M * (1 / 2)) by (apply Rmult_le_compat_l; [exact UM|unfold u in *; lra]).
      rewrite S_INR. lra. }
    replace (k + S (length l))%nat with (S k + length l)%nat by lia. rewrite <- !Rplus_assoc.
    apply IH; [exact E| | |exact FCD|exact BCD|exact FL|lra|exact BM].
    + rewrite plus_INR, S_INR. lra.
    + rewrite S_INR. replace (e + 2 * (INR k + 1) * u) with (e + 2 * INR k * u + 2 * u) by ring. exact Y.
Qed.
Lemma acc_py_sum e n (l : list A) : 0 <= e -> (length l <= n)%nat -> e + (20 * INR n + 20) * u <= 1 / 10 ->
  Forall (fun i => acc e (fx i) (fr i) (fs i)) l -> rsum (map fs l) <= 10 ^ 150 ->
  acc (e + (11 * INR n + 4) * u) (py_sum (map fx l)) (rsum (map fr l)) (rsum (map fs l)).
Proof.
  intros E N B F T. assert (UP := u_pos). assert (NL : INR (length l) <= INR n) by now apply le_INR. assert (0 <= INR n) by apply pos_INR.
  assert (0 <= INR n * u) by (apply Rmult_le_pos; lra).
  assert (NU : INR (length l) * u <= INR n * u) by (apply Rmult_le_compat_r; lra).
  destruct l as [|i l]; cbn [map py_sum]; [eapply acc_le; [|apply (acc_zero e)]; lra|].
  inversion F as [|? ? FI FL]; subst. cbn [map rsum fold_right length] in *. fold (rsum (map fs l)) in *. fold (rsum (map fr l)) in *.
  assert (N2 := rsum_nonneg _ (scale_nonneg e l FL)). assert (SI := acc_scale _ _ _ _ FI). rewrite S_INR in NU, NL. assert (0 <= INR (length l)) by apply pos_INR. assert (0 <= INR (length l) * u) by (apply Rmult_le_pos; lra).
  assert (X := acc_add _ _ _ _ _ _ _ (acc_zero e) FI ltac:(lra) ltac:(lra)). rewrite !Rplus_0_l in X.
  set (M := fs i + rsum (map fs l)) in *.
  destruct (of_int_ok 0 ltac:(lia)) as [F0 V0].
  assert (G := acc_sum_fold e M l 1 (fadd (of_int 0) (fx i)) (of_int 0) (fr i) (fs i) E). rewrite V0, Rabs_R0 in G. change (INR 1) with 1 in G. rewrite plus_INR in G. change (INR 1) with 1 in G.
  assert (UM : 0 <= u * M) by (apply Rmult_le_pos; unfold M; lra).
  assert (G0 : e + 20 * (1 + INR (length l)) * u <= 1 / 10) by lra.
  assert (X0 : acc (e + 2 * 1 * u) (fadd (of_int 0) (fx i)) (fr i) (fs i)) by (replace (e + 2 * 1 * u) with (e + 2 * u) by ring; exact X).
  assert (C0 : 0 <= 9 * 1 * u * M) by lra. assert (M0 : fs i + rsum (map fs l) <= M) by (unfold M; lra).
  specialize (G G0 X0 F0 C0 FL M0 T).
  destruct (fold_left sum_step (map fx l) (fadd (of_int 0) (fx i), of_int 0)) as [f c]. destruct G as (G1 & G2 & G3). fold M in G1.
  assert (KM : (1 + INR (length l)) * (u * M) <= INR n * (u * M)) by (apply Rmult_le_compat_r; lra).
  destruct (Beqb c (of_int 0) || negb (is_finite c)) eqn:Z; [eapply acc_le; [|exact G1]; lra|].
  assert (C : acc (e + (11 * INR n + 2) * u) f (fr i + rsum (map fr l)) M) by (eapply acc_le; [|exact G1]; lra).
  assert (BF := acc_val _ _ _ _ G1). destruct G1 as (G1 & G4 & G5).
  assert (CB : Rabs (val c) <= 9 * INR n * (u * M)) by lra.
  assert (CS : Rabs (val f + val c) <= 2 * M).
  { eapply Rle_trans; [apply Rabs_triang|]. assert (9 * INR n * (u * M) <= / 2 * M). { replace (9 * INR n * (u * M)) with (9 * (INR n * u) * M) by ring. apply Rmult_le_compat_r; [unfold M; lra|lra]. }
    assert ((1 + (e + 2 * (1 + INR (length l)) * u)) * M <= (11 / 10) * M) by (apply Rmult_le_compat_r; [unfold M; lra|lra]). lra. }
  destruct (add_fits f c G1 G2) as [FF VV].
  { eapply Rle_trans; [exact CS|]. apply Rle_trans with (10 ^ 151); [|apply ten_le; lia]. change (10 ^ 151) with (10 * 10 ^ 150). lra. }
  split; [exact FF|]. split; [|exact G5]. rewrite VV. assert (R := fl_plus f c).
  replace (fl (val f + val c) - (fr i + rsum (map fr l))) with ((fl (val f + val c) - (val f + val c)) + ((val f - (fr i + rsum (map fr l))) + val c)) by ring.
  eapply Rle_trans; [apply Rabs_triang|]. assert (u * Rabs (val f + val c) <= u * (2 * M)) by (apply Rmult_le_compat_l; lra).
  assert (Rabs (val f - (fr i + rsum (map fr l)) + val c) <= (e + 2 * (1 + INR (length l)) * u) * M + 9 * INR n * (u * M)) by (eapply Rle_trans; [apply Rabs_triang|lra]).
  replace ((e + (11 * INR n + 4) * u) * M) with (e * M + 11 * (INR n * (u * M)) + 4 * (u * M)) by ring.
  replace ((e + 2 * (1 + INR (length l)) * u) * M) with (e * M + 2 * ((1 + INR (length l)) * (u * M))) in * by ring. lra.
Qed.
End Lists.
