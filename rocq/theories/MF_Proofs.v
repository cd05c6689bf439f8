From Coq Require Import ZArith Reals Lra Lia List Bool.
From Flocq Require Import Core.Core IEEE754.BinarySingleNaN Relative Plus_error.
From Verif Require Import FP_Model FP_Proofs MF_Model MF_Spec.
From Verif Require CM_Model CM_Props NF_Text.
Import ListNotations.
Local Open Scope R_scope.

Notation val x := (B2R x) (only parsing).
(** * Averaging *)
Definition shape (n : nat) (r : list (list float)) : Prop := List.length r = n /\ Forall (fun x => List.length x = n) r.
Definition ent (r : list (list float)) (i j : nat) : float := nth j (nth i r []) (B754_zero false).
Lemma shape_row n r i : shape n r -> (i < n)%nat -> exists row, nth_error r i = Some row /\ List.length row = n /\ nth i r [] = row.
Proof.
  intros [Hl HF] Hi. destruct (nth_error r i) as [row|] eqn:E.
  - exists row. split; [reflexivity|]. split; [|now apply nth_error_nth].
    rewrite Forall_forall in HF. apply HF. eapply nth_error_In; eauto.
  - apply nth_error_None in E. lia.
Qed.
Lemma mget_ent n r i j : shape n r -> (i < n)%nat -> (j < n)%nat -> mget r i j = Some (ent r i j).
Proof.
  intros Hs Hi Hj. destruct (shape_row n r i Hs Hi) as (row & E & Hl & Hn). unfold mget, ent. rewrite E, Hn.
  apply nth_error_nth'. lia.
Qed.
Lemma mset_spec n r i j v : shape n r -> (i < n)%nat -> (j < n)%nat ->
  exists r', mset r i j v = Some r' /\ shape n r' /\
    forall a b, ent r' a b = if Nat.eqb a i && Nat.eqb b j then v else ent r a b.
Proof.
  intros Hs Hi Hj. destruct (shape_row n r i Hs Hi) as (row & E & Hl & Hn). unfold mset. rewrite E.
  destruct (CM_Props.lset_spec row j v) as (row' & -> & Hl' & Hr); [lia|].
  destruct (CM_Props.lset_spec r i row') as (r' & -> & Hlr & Hrr); [destruct Hs; lia|].
  eexists. split; [reflexivity|]. split.
  - split; [destruct Hs; lia|]. apply Forall_forall. intros x Hx. apply (In_nth _ _ []) in Hx.
    destruct Hx as (k & Hk & <-). rewrite Hrr. destruct (Nat.eqb_spec k i); [lia|].
    destruct Hs as [Hs1 Hs2]. rewrite Forall_forall in Hs2. apply Hs2. apply nth_In. lia.
  - intros a b. unfold ent. rewrite Hrr. destruct (Nat.eqb_spec a i) as [->|]; [|reflexivity].
    cbn [andb]. rewrite Hr, Hn. destruct (Nat.eqb b j); reflexivity.
Qed.
Definition mean (x y : float) : float := fdiv (fadd x y) (of_int 2).
Definition mean_at (r : list (list float)) (a b : nat) : float := mean (ent r (Nat.min a b) (Nat.max a b)) (ent r (Nat.max a b) (Nat.min a b)).
Lemma average_loop n orig : shape n orig -> forall l c,
  shape n c -> Forall (fun p => (fst p < n)%nat /\ (snd p < n)%nat) l ->
  exists c', fold_left (average_step orig) l (Some c) = Some c' /\ shape n c' /\
    forall a b, (a < n)%nat -> (b < n)%nat -> ent c' a b =
      if existsb (fun p => Nat.ltb (fst p) (snd p) && ((Nat.eqb a (fst p) && Nat.eqb b (snd p)) || (Nat.eqb a (snd p) && Nat.eqb b (fst p)))) l
      then mean_at orig a b else ent c a b.
Proof.
  intros Ho. induction l as [|[i j] l IH]; intros c Hc HF.
  - exists c. split; [reflexivity|]. split; [exact Hc|]. reflexivity.
  - inversion HF as [|? ? [Hi Hj] HF']; subst. cbn [fst snd] in Hi, Hj. cbn [fold_left average_step].
    destruct (Nat.leb_spec j i) as [Hle|Hgt].
    + destruct (IH c Hc HF') as (c' & E & Hs & H). exists c'. split; [exact E|]. split; [exact Hs|].
      intros a b Ha Hb. rewrite (H a b Ha Hb). cbn [existsb fst snd]. destruct (Nat.ltb_spec i j); [lia|]. reflexivity.
    + rewrite (mget_ent n orig i j Ho Hi Hj), (mget_ent n orig j i Ho Hj Hi). fold (mean (ent orig i j) (ent orig j i)).
      set (avg := mean (ent orig i j) (ent orig j i)).
      destruct (mset_spec n c i j avg Hc Hi Hj) as (c1 & E1 & S1 & H1). rewrite E1.
      destruct (mset_spec n c1 j i avg S1 Hj Hi) as (c2 & E2 & S2 & H2). rewrite E2.
      destruct (IH c2 S2 HF') as (c' & E & Hs & H). exists c'. split; [exact E|]. split; [exact Hs|].
      intros a b Ha Hb. rewrite (H a b Ha Hb). cbn [existsb fst snd]. destruct (Nat.ltb_spec i j); [|lia]. cbn [andb].
      set (rest := existsb _ l). destruct rest; [now rewrite Bool.orb_true_r|]. rewrite Bool.orb_false_r.
      rewrite H2, H1. destruct (Nat.eqb_spec a j) as [->|Haj], (Nat.eqb_spec b i) as [->|Hbi]; cbn [andb orb].
      * rewrite Bool.orb_true_r. unfold avg, mean_at. rewrite Nat.min_r, Nat.max_l by lia. reflexivity.
      * destruct (Nat.eqb_spec j i); [lia|]. reflexivity.
      * destruct (Nat.eqb_spec i j); [lia|]. rewrite Bool.andb_false_r. reflexivity.
      * destruct (Nat.eqb_spec a i) as [->|], (Nat.eqb_spec b j) as [->|]; try reflexivity. cbn [andb orb].
        unfold avg, mean_at. rewrite Nat.min_l, Nat.max_r by lia. reflexivity.
Qed.
Lemma averaged n m : square n m -> exists m', averaged_off_diagonals m = Some m' /\ square n m' /\ names m' = names m /\
  forall i j, (i < n)%nat -> (j < n)%nat -> cell m' i j = if Nat.eqb i j then cell m i j else mean_at (rows m) i j.
Proof.
  intros (Hn & Hr & HF). assert (S : shape n (rows m)) by (split; assumption). unfold averaged_off_diagonals. rewrite Hn, Hr.
  destruct (average_loop n (rows m) S (CM_Model.index_pairs n n) (rows m) S) as (c & E & Sc & H).
  { apply Forall_forall. intros [i j] Hin. now apply CM_Props.index_pairs_in in Hin. }
  rewrite E. eexists. split; [reflexivity|]. destruct Sc as [S1 S2]. split; [split; [exact Hn|split; assumption]|]. split; [reflexivity|].
  intros i j Hi Hj. unfold cell. cbn [rows]. fold (ent c i j). rewrite (H i j Hi Hj). fold (ent (rows m) i j).
  destruct (existsb _ _) eqn:X.
  - apply existsb_exists in X. destruct X as ((a & b) & _ & X). cbn [fst snd] in X. apply andb_prop in X as [L X]. apply Nat.ltb_lt in L.
    destruct (Nat.eqb_spec i j) as [->|]; [|reflexivity]. exfalso.
    apply orb_prop in X as [X|X]; apply andb_prop in X as [P Q]; apply Nat.eqb_eq in P, Q; lia.
  - destruct (Nat.eqb_spec i j) as [->|N]; [reflexivity|]. exfalso. rewrite <- Bool.not_true_iff_false in X. apply X. apply existsb_exists.
    destruct (Nat.lt_ge_cases i j) as [L|L].
    + exists (i, j). split; [now apply CM_Props.index_pairs_in|]. cbn [fst snd]. rewrite (proj2 (Nat.ltb_lt i j) L), !Nat.eqb_refl. reflexivity.
    + exists (j, i). split; [now apply CM_Props.index_pairs_in|]. cbn [fst snd]. rewrite (proj2 (Nat.ltb_lt j i) ltac:(lia)), !Nat.eqb_refl.
      now rewrite Bool.orb_true_r.
Qed.

(** ** The mean of two floats *)
Lemma u_ulp : half_ulp = u. Proof. unfold half_ulp, u. f_equal. ring. Qed.
Lemma fmt (x : float) : generic_format radix2 (FLT_exp (-1074) 53) (val x).
Proof. exact (generic_format_B2R prec emax x). Qed.
Lemma fl_id x : generic_format radix2 (FLT_exp (-1074) 53) x -> fl x = x.
Proof. intros H. unfold fl. apply round_generic; [auto with typeclass_instances|exact H]. Qed.
Lemma fl_fmt x : generic_format radix2 (FLT_exp (-1074) 53) (fl x).
Proof. unfold fl. change (FLT_exp (-1074) 53) with fexp. apply generic_format_round; [exact (fexp_correct prec emax Hprec)|auto with typeclass_instances]. Qed.
Lemma fmt_double x : generic_format radix2 (FLT_exp (-1074) 53) x -> generic_format radix2 (FLT_exp (-1074) 53) (2 * x).
Proof.
  intros H. apply (FLT_format_generic radix2 (-1074) 53) in H. destruct H as [[f e] E M X]. cbn in *.
  apply generic_format_FLT. exists (Float radix2 f (e + 1)); cbn [Fnum Fexp]; [|exact M|lia].
  rewrite E. unfold F2R. cbn [Fnum Fexp]. rewrite bpow_plus. replace (bpow radix2 1) with 2 by reflexivity. ring.
Qed.
Lemma sum_rel (x y : R) : generic_format radix2 (FLT_exp (-1074) 53) x -> generic_format radix2 (FLT_exp (-1074) 53) y ->
  Rabs (fl (x + y) - (x + y)) <= u * Rabs (x + y).
Proof.
  intros X Y. destruct (FLT_plus_error_N_ex radix2 (-1074) 53 (fun n => negb (Z.even n)) x y X Y) as (eps & B & E).
  change (round radix2 (FLT_exp (-1074) 53) (Znearest (fun n => negb (Z.even n))) (x + y)) with (fl (x + y)) in E. rewrite E.
  replace ((x + y) * (1 + eps) - (x + y)) with (eps * (x + y)) by ring. rewrite Rabs_mult. apply Rmult_le_compat_r; [apply Rabs_pos|].
  eapply Rle_trans; [exact B|]. assert (Z : u_ro radix2 53 = u).
  { unfold u_ro. change (bpow radix2 (- (53) + 1)) with (/ 4503599627370496). unfold u. lra. }
  rewrite Z. assert (UP := u_pos). unfold Rdiv. rewrite <- (Rmult_1_r u) at 3. apply Rmult_le_compat_l; [lra|].
  rewrite <- Rinv_1. apply Rinv_le; lra.
Qed.
Lemma half_err x : generic_format radix2 (FLT_exp (-1074) 53) x -> Rabs (fl (x / 2) - x / 2) <= bpow radix2 (-1075).
Proof.
  intros H. destruct (Rlt_or_le (Rabs x) (bpow radix2 (-1021))) as [S|S].
  - assert (E := error_le_half_ulp radix2 (FLT_exp (-1074) 53) (fun n => negb (Z.even n)) (x / 2)).
    change (Rabs (fl (x / 2) - x / 2) <= / 2 * ulp radix2 (FLT_exp (-1074) 53) (x / 2)) in E.
    rewrite (ulp_FLT_small radix2 (-1074) 53) in E.
    + eapply Rle_trans; [exact E|]. change (-1075)%Z with (-1074 + -1)%Z. rewrite bpow_plus. change (bpow radix2 (-1)) with (/ 2). lra.
    + unfold Rdiv. rewrite Rabs_mult, (Rabs_pos_eq (/ 2)) by lra. change (-1074 + 53)%Z with (-1021)%Z. assert (P := Rabs_pos x). lra.
  - rewrite fl_id; [rewrite Rminus_eq_0, Rabs_R0; apply bpow_ge_0|].
    assert (M : (-1020 <= mag radix2 x)%Z) by (apply mag_ge_bpow; exact S).
    unfold generic_format in H. set (f := Ztrunc _) in H. set (e := cexp _ _ x) in H.
    assert (Ee : e = (mag radix2 x - 53)%Z) by (unfold e, cexp, FLT_exp; lia).
    apply generic_format_FLT. exists (Float radix2 f (e - 1)); cbn [Fnum Fexp].
    + rewrite H. unfold F2R. cbn [Fnum Fexp]. unfold Zminus. rewrite bpow_plus. change (bpow radix2 (- (1))) with (/ 2). lra.
    + apply lt_IZR. rewrite abs_IZR. change (IZR (radix2 ^ 53)) with (bpow radix2 53).
      apply Rmult_lt_reg_r with (bpow radix2 e); [apply bpow_gt_0|]. rewrite <- bpow_plus.
      replace (Rabs (IZR f) * bpow radix2 e) with (Rabs x).
      * replace (53 + e)%Z with (mag radix2 x : Z) by lia. apply bpow_mag_gt.
      * rewrite H at 1. unfold F2R. cbn [Fnum Fexp]. rewrite Rabs_mult, (Rabs_pos_eq (bpow radix2 e)) by apply bpow_ge_0. reflexivity.
    + lia.
Qed.

Lemma add_val a b : is_finite a = true -> is_finite b = true -> Rabs (val a + val b) <= 10 ^ 300 ->
  is_finite (fadd a b) = true /\ val (fadd a b) = fl (val a + val b).
Proof.
  intros A B H. assert (C := Bplus_correct prec emax Hprec Hmax mode_NE a b A B).
  change (round radix2 (SpecFloat.fexp prec emax) (round_mode mode_NE) (val a + val b)) with (fl (val a + val b)) in C.
  rewrite Rlt_bool_true in C by (apply NF_Text.fl_fits; exact H). destruct C as (C & F & _). split; [exact F|exact C].
Qed.
Lemma sub_val a b : is_finite a = true -> is_finite b = true -> Rabs (val a - val b) <= 10 ^ 300 ->
  is_finite (fsub a b) = true /\ val (fsub a b) = fl (val a - val b).
Proof.
  intros A B H. assert (C := Bminus_correct prec emax Hprec Hmax mode_NE a b A B).
  change (round radix2 (SpecFloat.fexp prec emax) (round_mode mode_NE) (val a - val b)) with (fl (val a - val b)) in C.
  rewrite Rlt_bool_true in C by (apply NF_Text.fl_fits; exact H). destruct C as (C & F & _). split; [exact F|exact C].
Qed.
Lemma div_val a b : is_finite a = true -> val b <> 0 -> Rabs (val a / val b) <= 10 ^ 300 ->
  is_finite (fdiv a b) = true /\ val (fdiv a b) = fl (val a / val b).
Proof.
  intros A B H. assert (C := Bdiv_correct prec emax Hprec Hmax mode_NE a b B).
  change (round radix2 (SpecFloat.fexp prec emax) (round_mode mode_NE) (val a / val b)) with (fl (val a / val b)) in C.
  rewrite Rlt_bool_true in C by (apply NF_Text.fl_fits; exact H). destruct C as (C & F & _). rewrite A in F. split; [exact F|exact C].
Qed.
Lemma ten_split : 10 ^ 300 = 10 * 10 ^ 299. Proof. reflexivity. Qed.
Lemma ten299 : 0 < 10 ^ 299. Proof. apply pow_lt. lra. Qed.
Lemma opp_val (x : float) : val (fopp x) = - val x. Proof. apply B2R_Bopp. Qed.
Lemma opp_fin (x : float) : is_finite (fopp x) = is_finite x. Proof. apply is_finite_Bopp. Qed.
Lemma gt_val x y : is_finite x = true -> is_finite y = true -> fgt x y = Rlt_bool (val y) (val x).
Proof. intros X Y. unfold fgt. apply Bltb_correct; assumption. Qed.

Lemma mean_ok a b : is_finite a = true -> is_finite b = true -> Rabs (val a) <= 10 ^ 299 -> Rabs (val b) <= 10 ^ 299 ->
  is_finite (mean a b) = true /\ Rmin (val a) (val b) <= val (mean a b) <= Rmax (val a) (val b) /\
  Rabs (val (mean a b) - (val a + val b) / 2) <= u * Rabs (val a + val b) / 2 + bpow radix2 (-1075).
Proof.
  intros A B BA BB. assert (T := ten299). assert (TR : Rabs (val a + val b) <= 2 * 10 ^ 299) by (eapply Rle_trans; [apply Rabs_triang|lra]).
  destruct (add_val a b A B) as [FS VS]; [rewrite ten_split; lra|].
  assert (SR := sum_rel (val a) (val b) (fmt a) (fmt b)). assert (UP := u_pos). assert (U1 : u <= 1) by (unfold u; lra).
  destruct (of_int_ok 2 ltac:(reflexivity)) as [F2 V2].
  assert (AP := Rabs_pos (val a + val b)).
  assert (SB : Rabs (fl (val a + val b)) <= 4 * 10 ^ 299).
  { replace (fl (val a + val b)) with ((val a + val b) + (fl (val a + val b) - (val a + val b))) by ring.
    eapply Rle_trans; [apply Rabs_triang|]. nra. }
  destruct (div_val (fadd a b) (of_int 2) FS) as [FM VM].
  { rewrite V2. lra. }
  { rewrite VS, V2. unfold Rdiv. rewrite Rabs_mult, (Rabs_pos_eq (/ 2)) by lra. rewrite ten_split. lra. }
  fold (mean a b) in FM, VM. rewrite VS, V2 in VM. split; [exact FM|]. rewrite VM. split.
  - assert (LO : forall p q : float, val p <= val q -> val p <= fl (fl (val p + val q) / 2) <= val q).
    { intros p q L. split.
      - rewrite <- (fl_id (val p) (fmt p)) at 1. apply fl_mono. assert (X := fl_mono (2 * val p) (val p + val q) ltac:(lra)).
        rewrite (fl_id (2 * val p)) in X by (apply fmt_double, fmt). lra.
      - rewrite <- (fl_id (val q) (fmt q)) at 2. apply fl_mono. assert (X := fl_mono (val p + val q) (2 * val q) ltac:(lra)).
        rewrite (fl_id (2 * val q)) in X by (apply fmt_double, fmt). lra. }
    destruct (Rle_or_lt (val a) (val b)) as [L|L].
    + rewrite Rmin_left, Rmax_right by exact L. apply LO, L.
    + rewrite Rmin_right, Rmax_left by lra. rewrite (Rplus_comm (val a)). apply LO. lra.
  - assert (H := half_err _ (fl_fmt (val a + val b))).
    replace (fl (fl (val a + val b) / 2) - (val a + val b) / 2)
      with ((fl (fl (val a + val b) / 2) - fl (val a + val b) / 2) + (fl (val a + val b) - (val a + val b)) * / 2) by field.
    eapply Rle_trans; [apply Rabs_triang|]. rewrite Rabs_mult, (Rabs_pos_eq (/ 2)) by lra. lra.
Qed.

(** * Sums *)
Lemma total_ext {A} (f g : A -> R) l : (forall x, In x l -> f x = g x) -> total f l = total g l.
Proof. induction l as [|x l IH]; intros H; [reflexivity|]. cbn. rewrite (H x) by (now left). rewrite IH; [reflexivity|]. intros y Hy. apply H. now right. Qed.
Lemma total_app {A} (f : A -> R) l l' : total f (l ++ l') = total f l + total f l'.
Proof. induction l as [|x l IH]; cbn; [ring|]. rewrite IH. ring. Qed.
Lemma total_flat {A B} (f : B -> R) (h : A -> list B) l : total f (flat_map h l) = total (fun x => total f (h x)) l.
Proof. induction l as [|x l IH]; cbn; [reflexivity|]. now rewrite total_app, IH. Qed.
Lemma total_plus {A} (f h : A -> R) l : total (fun x => f x + h x) l = total f l + total h l.
Proof. induction l as [|x l IH]; cbn; [ring|]. rewrite IH. ring. Qed.
Lemma total_scale {A} k (f : A -> R) l : total (fun x => k * f x) l = k * total f l.
Proof. induction l as [|x l IH]; cbn; [ring|]. rewrite IH. ring. Qed.
Lemma total_0 {A} (f : A -> R) l : (forall x, In x l -> f x = 0) -> total f l = 0.
Proof. intros H. rewrite (total_ext f (fun x => 0 * 0)) by (intros x Hx; rewrite H by exact Hx; ring). rewrite total_scale. ring. Qed.
Lemma total_nonneg {A} (f : A -> R) l : (forall x, In x l -> 0 <= f x) -> 0 <= total f l.
Proof. induction l as [|x l IH]; intros H; cbn; [lra|]. assert (0 <= f x) by (apply H; now left). assert (0 <= total f l) by (apply IH; intros y Hy; apply H; now right). lra. Qed.
Lemma total_pick (f : nat -> R) l i : NoDup l -> In i l -> total (fun k => if Nat.eqb k i then f k else 0) l = f i.
Proof.
  induction l as [|x l IH]; intros N I; [destruct I|]. inversion N as [|? ? X N']; subst. cbn. destruct (Nat.eqb_spec x i) as [->|NE].
  - rewrite total_0; [ring|]. intros y Hy. destruct (Nat.eqb_spec y i) as [->|]; [contradiction|reflexivity].
  - destruct I as [->|I]; [congruence|]. rewrite (IH N' I). ring.
Qed.
Lemma total_seq (f : nat -> R) n i : (i < n)%nat -> total (fun k => if Nat.eqb k i then f k else 0) (seq 0 n) = f i.
Proof. intros H. apply total_pick; [apply seq_NoDup|apply in_seq; lia]. Qed.
Lemma total_others (f : nat -> R) n i : (i < n)%nat -> total f (seq 0 n) = f i + total (fun k => if Nat.eqb i k then 0 else f k) (seq 0 n).
Proof.
  intros H. rewrite <- (total_seq f n i H), <- total_plus. apply total_ext. intros k _. rewrite (Nat.eqb_sym i k). destruct (Nat.eqb k i); ring.
Qed.

Definition diag_step (row : list float) (i : nat) (a : float) (j : nat) : float :=
  if Nat.eqb i j then a else fsub a (fopp (nth j row (B754_zero false))).
Lemma pow1 k : 1 <= (1 + u) ^ k. Proof. assert (UP := u_pos). apply pow_R1_Rle. lra. Qed.
Lemma sum_err row i : forall l a, is_finite a = true -> (forall j, In j l -> is_finite (nth j row (B754_zero false)) = true) ->
  let x j := if Nat.eqb i j then 0 else val (nth j row (B754_zero false)) in
  (1 + u) ^ List.length l * (Rabs (val a) + total (fun j => Rabs (x j)) l) <= 10 ^ 300 ->
  let r := fold_left (diag_step row i) l a in
  is_finite r = true /\ Rabs (val r - (val a + total x l)) <= ((1 + u) ^ List.length l - 1) * (Rabs (val a) + total (fun j => Rabs (x j)) l).
Proof.
  assert (UP := u_pos). induction l as [|j l IH]; intros a FA FL x H r.
  - cbn in *. split; [exact FA|]. replace (val a - (val a + 0)) with 0 by ring. rewrite Rabs_R0. lra.
  - cbn [fold_left total List.length] in *. rewrite <- tech_pow_Rmult in *. set (k := List.length l) in *. assert (P := pow1 k). assert (AP := Rabs_pos (val a)).
    assert (TP : 0 <= total (fun j => Rabs (x j)) l) by (apply total_nonneg; intros; apply Rabs_pos). set (S' := total (fun j => Rabs (x j)) l) in *.
    unfold r. unfold diag_step at 2 4. destruct (Nat.eqb i j) eqn:EJ.
    + assert (XJ : x j = 0) by (unfold x; now rewrite EJ). rewrite XJ, Rabs_R0, Rplus_0_l in H. rewrite XJ, Rabs_R0, !Rplus_0_l.
      assert (Q : 0 <= (1 + u) ^ k * (Rabs (val a) + S')) by (apply Rmult_le_pos; lra).
      destruct (IH a FA) as [F E]; [intros; apply FL; now right|change ((1 + u) ^ k * (Rabs (val a) + S') <= 10 ^ 300); clear - H Q UP; nra|]. split; [exact F|].
      eapply Rle_trans; [exact E|]. change (((1 + u) ^ k - 1) * (Rabs (val a) + S') <= ((1 + u) * (1 + u) ^ k - 1) * (Rabs (val a) + S')). apply Rmult_le_compat_r; [lra|]. nra.
    + set (b := nth j row (B754_zero false)) in *. assert (XJ : x j = val b) by (unfold x; now rewrite EJ). rewrite XJ in *. assert (FB : is_finite b = true) by (apply FL; now left). assert (BP := Rabs_pos (val b)).
      assert (TR := Rabs_triang (val a) (val b)). assert (AB := Rabs_pos (val a + val b)).
      assert (BIG : Rabs (val a + val b) <= 10 ^ 300).
      { eapply Rle_trans; [|exact H]. assert (1 <= (1 + u) * (1 + u) ^ k) by nra. nra. }
      destruct (sub_val a (fopp b) FA) as [FS VS]; [now rewrite opp_fin|rewrite opp_val; unfold Rminus; now rewrite Ropp_involutive|].
      rewrite opp_val in VS. unfold Rminus in VS at 1. rewrite Ropp_involutive in VS. set (a' := fsub a (fopp b)) in *.
      assert (SR := sum_rel (val a) (val b) (fmt a) (fmt b)). rewrite <- VS in SR.
      assert (A' : Rabs (val a') <= (1 + u) * (Rabs (val a) + Rabs (val b))).
      { replace (val a') with ((val a + val b) + (val a' - (val a + val b))) by ring. eapply Rle_trans; [apply Rabs_triang|]. nra. }
      assert (A'' : Rabs (val a') + S' <= (1 + u) * (Rabs (val a) + (Rabs (val b) + S'))) by nra.
      destruct (IH a' FS) as [F E]; [intros; apply FL; now right|change ((1 + u) ^ k * (Rabs (val a') + S') <= 10 ^ 300); eapply Rle_trans; [apply Rmult_le_compat_l; [lra|exact A'']|lra]|].
      split; [exact F|]. set (rr := fold_left _ l a') in *.
      change (Rabs (val rr - (val a' + total x l)) <= ((1 + u) ^ k - 1) * (Rabs (val a') + S')) in E.
      replace (val rr - (val a + (val b + total x l))) with ((val rr - (val a' + total x l)) + (val a' - (val a + val b))) by ring.
      eapply Rle_trans; [apply Rabs_triang|]. assert (X := Rmult_le_compat_l ((1 + u) ^ k - 1) _ _ ltac:(lra) A'').
      assert (Y : u * Rabs (val a + val b) <= u * (Rabs (val a) + (Rabs (val b) + S'))) by (apply Rmult_le_compat_l; lra).
      set (p := (1 + u) ^ k) in *. set (q := Rabs (val a) + (Rabs (val b) + S')) in *.
      replace (((1 + u) * p - 1) * q) with ((p - 1) * ((1 + u) * q) + u * q) by ring. lra.
Qed.
