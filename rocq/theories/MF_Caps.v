From Coq Require Import ZArith Reals Lra Lia List Bool.
From Flocq Require Import Core.Core IEEE754.BinarySingleNaN.
From Verif Require Import FP_Model FP_Proofs MF_Model MF_Spec MF_Proofs.
Import ListNotations.
Local Open Scope R_scope.
Notation val x := (B2R x) (only parsing).

Definition fits (n : nat) (m : matrix) : Prop := numbers n m /\ INR n <= 10 ^ 12 /\ forall i, (i < n)%nat -> row_size n m i <= 10 ^ 290.
Lemma total_le {A} (f : A -> R) b l : (forall x, In x l -> f x <= b) -> total f l <= INR (List.length l) * b.
Proof.
  induction l as [|x l IH]; intros H; [simpl; lra|]. cbn [total List.length]. rewrite S_INR. assert (f x <= b) by (apply H; now left).
  assert (total f l <= INR (List.length l) * b) by (apply IH; intros y Hy; apply H; now right). lra.
Qed.
Lemma moderate_fits n m : moderate n m -> fits n m.
Proof.
  intros (N & L & B). split; [exact N|]. split; [exact L|]. intros i Hi. unfold row_size.
  eapply Rle_trans; [apply (total_le _ (10 ^ 270))|]; [intros j Hj; apply in_seq in Hj; apply B; lia|]. rewrite seq_length.
  replace (10 ^ 290) with (10 ^ 20 * 10 ^ 270) by (rewrite <- pow_add; reflexivity). apply Rmult_le_compat_r; [left; apply pow_lt; lra|].
  eapply Rle_trans; [exact L|]. apply Rle_pow; [lra|lia].
Qed.

Definition maybe (i j : nat) (v : float) : list capacitor := if fgt v (of_int 0) then [Cap i j v] else [].
Lemma add_maybe i j v l : add_parasitic_cap i j v l = l ++ maybe i j v.
Proof. unfold add_parasitic_cap, maybe. destruct (fgt v (of_int 0)); [reflexivity|now rewrite app_nil_r]. Qed.
Definition offs (row : list float) (i : nat) (js : list nat) : list capacitor :=
  flat_map (fun j => if Nat.ltb i j then maybe i j (fopp (nth j row (B754_zero false))) else []) js.
Lemma columns row i : forall js d l, Forall (fun j => (j < List.length row)%nat) js ->
  fold_left (col_step row i) js (Some (d, l)) = Some (fold_left (diag_step row i) js d, l ++ offs row i js).
Proof.
  induction js as [|j js IH]; intros d l H; [cbn; now rewrite app_nil_r|]. inversion H as [|? ? Hj H']; subst. cbn [fold_left col_step offs flat_map].
  unfold diag_step at 2. destruct (Nat.eqb_spec i j) as [->|N].
  - rewrite (IH _ _ H'). destruct (Nat.ltb_spec j j); [lia|]. reflexivity.
  - rewrite (nth_error_nth' row (B754_zero false) Hj). rewrite (IH _ _ H'). f_equal. f_equal. destruct (Nat.ltb i j); [|reflexivity].
    rewrite add_maybe, <- app_assoc. reflexivity.
Qed.
Definition row_of (m : matrix) (i : nat) : list float := nth i (rows m) [].
Definition ground_f (n : nat) (m : matrix) (i : nat) : float := fold_left (diag_step (row_of m i) i) (seq 0 n) (cell m i i).
Definition row_caps (n : nat) (m : matrix) (i : nat) : list capacitor :=
  offs (row_of m i) i (seq 0 n) ++ (if Nat.ltb 0 i then maybe i i (ground_f n m i) else []).
Lemma all_rows n m : square n m -> forall l acc, Forall (fun i => (i < n)%nat) l ->
  fold_left (row_step m) l (Some acc) = Some (acc ++ flat_map (row_caps n m) l).
Proof.
  intros (Hn & Hr & HF). assert (S : shape n (rows m)) by (split; assumption).
  induction l as [|i l IH]; intros acc H; [cbn; now rewrite app_nil_r|]. inversion H as [|? ? Hi H']; subst.
  cbn [fold_left row_step flat_map]. destruct (shape_row _ _ i S Hi) as (row & E & Hl & Hd). rewrite E.
  rewrite (nth_error_nth' row (B754_zero false)) by lia. unfold dimension. rewrite columns.
  2:{ apply Forall_forall. intros j Hj. apply in_seq in Hj. lia. }
  unfold row_caps, ground_f, row_of, cell. rewrite Hd. destruct (Nat.ltb 0 i).
  - rewrite add_maybe, (IH _ H'). now rewrite !app_assoc.
  - rewrite (IH _ H'). now rewrite app_nil_r, !app_assoc.
Qed.
Lemma capacitors_are n m : square n m -> capacitors m = Some (flat_map (row_caps n m) (seq 0 n)).
Proof.
  intros S. unfold capacitors, dimension. rewrite (proj1 S). rewrite (all_rows n m S); [reflexivity|]. apply Forall_forall. intros i Hi. apply in_seq in Hi. lia.
Qed.

(** ** The capacitors to net 0 *)
Lemma row_sizes n m i : (i < n)%nat ->
  Rabs (val (cell m i i)) + total (fun j => Rabs (if Nat.eqb i j then 0 else val (nth j (row_of m i) (B754_zero false)))) (seq 0 n) = row_size n m i.
Proof.
  intros H. unfold row_size. rewrite (total_others (fun j => Rabs (entry m i j)) n i H). unfold entry, value. f_equal. apply total_ext. intros j _. destruct (Nat.eqb i j); [apply Rabs_R0|reflexivity].
Qed.
Lemma row_sums n m i : (i < n)%nat ->
  val (cell m i i) + total (fun j => if Nat.eqb i j then 0 else val (nth j (row_of m i) (B754_zero false))) (seq 0 n) = row_sum n m i.
Proof. intros H. unfold row_sum. rewrite (total_others (entry m i) n i H). reflexivity. Qed.
Lemma bernoulli k : INR k * u <= / 2 -> (1 + u) ^ k <= 1 + 2 * INR k * u.
Proof.
  assert (UP := u_pos). induction k as [|k IH]; intros H; [simpl; lra|]. rewrite S_INR in *. assert (P := pos_INR k). rewrite <- tech_pow_Rmult.
  specialize (IH ltac:(nra)). assert (0 <= INR k * u) by nra. nra.
Qed.
Lemma row_size_pos n m i : 0 <= row_size n m i.
Proof. apply total_nonneg. intros. apply Rabs_pos. Qed.
Lemma ground_ok n m i : fits n m -> (i < n)%nat ->
  is_finite (ground_f n m i) = true /\ Rabs (val (ground_f n m i) - row_sum n m i) <= ((1 + u) ^ n - 1) * row_size n m i.
Proof.
  intros (N & L & B) Hi. assert (UP := u_pos). assert (X := sum_err (row_of m i) i (seq 0 n) (cell m i i) (N i i Hi Hi)).
  cbv zeta in X. rewrite seq_length in X. rewrite row_sizes, row_sums in X by exact Hi. apply X.
  - intros j Hj. apply in_seq in Hj. apply (N i j Hi). lia.
  - assert (W : (1 + u) ^ n <= 2). { eapply Rle_trans; [apply bernoulli|]; unfold u in *; simpl in L; lra. }
    assert (P := row_size_pos n m i). specialize (B i Hi). assert (T : 10 ^ 300 = 10 ^ 10 * 10 ^ 290) by (rewrite <- pow_add; reflexivity).
    rewrite T. assert (0 < 10 ^ 290) by (apply pow_lt; lra). assert (2 <= 10 ^ 10) by (simpl; lra).
    apply Rmult_le_compat; [left; apply pow_lt; lra|exact P|lra|exact B].
Qed.

(** ** Sums over all capacitors *)
Lemma fgt_0 v : is_finite v = true -> fgt v (of_int 0) = Rlt_bool 0 (val v).
Proof. intros F. destruct (of_int_ok 0 ltac:(reflexivity)) as [F0 V0]. rewrite gt_val by assumption. now rewrite V0. Qed.
Lemma total_maybe (h : capacitor -> R) (q : R) i j v : is_finite v = true -> (forall x, h (Cap i j x) = val x * q) ->
  total h (maybe i j v) = Rmax 0 (val v) * q.
Proof.
  intros F H. unfold maybe. rewrite (fgt_0 v F). destruct (Rlt_bool_spec 0 (val v)) as [L|L]; cbn.
  - rewrite H, Rmax_right by lra. ring.
  - rewrite Rmax_left by lra. ring.
Qed.
(** a sum over the capacitors where each one counts with a factor *)
Lemma total_caps n m (h : capacitor -> R) (q : nat -> nat -> R) : fits n m -> (forall i j x, h (Cap i j x) = val x * q i j) ->
  total h (flat_map (row_caps n m) (seq 0 n)) =
  total (fun i => total (fun j => if Nat.ltb i j then Rmax 0 (- entry m i j) * q i j else 0) (seq 0 n) +
    (if Nat.ltb 0 i then Rmax 0 (val (ground_f n m i)) * q i i else 0)) (seq 0 n).
Proof.
  intros M H. rewrite total_flat. apply total_ext. intros i Hi. apply in_seq in Hi. unfold row_caps. rewrite total_app. f_equal.
  - unfold offs. rewrite total_flat. apply total_ext. intros j Hj. apply in_seq in Hj. destruct (Nat.ltb i j); [|reflexivity].
    rewrite (total_maybe h (q i j)); [|rewrite opp_fin; apply (proj1 M i j); lia|intros; apply H]. rewrite opp_val. reflexivity.
  - destruct (Nat.ltb 0 i); [|reflexivity]. apply total_maybe; [apply ground_ok; [exact M|lia]|intros; apply H].
Qed.

Lemma in_maybe c i j v : is_finite v = true -> In c (maybe i j v) -> c = Cap i j v /\ 0 < val v.
Proof.
  intros F. unfold maybe. rewrite (fgt_0 v F). destruct (Rlt_bool_spec 0 (val v)) as [L|L]; cbn; [|intros []]. intros [<-|[]]. now split.
Qed.
Lemma in_row n m i c : fits n m -> (i < n)%nat -> In c (row_caps n m i) ->
  cap_i c = i /\ is_finite (farad c) = true /\ 0 < val (farad c) /\ ((i < cap_j c < n)%nat \/ (0 < i)%nat /\ cap_j c = i).
Proof.
  intros M Hi H. unfold row_caps in H. apply in_app_iff in H. destruct H as [H|H].
  - unfold offs in H. apply in_flat_map in H. destruct H as (j & Hj & H). apply in_seq in Hj. destruct (Nat.ltb_spec i j) as [L|L]; [|destruct H].
    assert (F : is_finite (fopp (nth j (row_of m i) (B754_zero false))) = true) by (rewrite opp_fin; apply (proj1 M i j); lia).
    apply (in_maybe _ _ _ _ F) in H. destruct H as [-> H]. cbn. repeat split; [exact F|exact H|]. left. lia.
  - destruct (Nat.ltb_spec 0 i) as [L|L]; [|destruct H]. destruct (ground_ok n m i M Hi) as [F _]. apply (in_maybe _ _ _ _ F) in H.
    destruct H as [-> H]. cbn. repeat split; [exact F|exact H|]. right. split; [exact L|reflexivity].
Qed.
Lemma nodup_flat {A B C} (f : A -> list B) (key : B -> C) (p : B -> A) : (forall x y, key x = key y -> p x = p y) -> forall l,
  NoDup l -> (forall x, In x l -> NoDup (map key (f x))) -> (forall x y, In x l -> In y (f x) -> p y = x) -> NoDup (map key (flat_map f l)).
Proof.
  intros K. induction l as [|x l IH]; intros N D P; [constructor|]. inversion N as [|? ? X N']; subst. cbn. rewrite map_app.
  assert (I : NoDup (map key (flat_map f l))) by (apply IH; [exact N'|intros; apply D; now right|intros; apply P; [now right|assumption]]).
  assert (J : NoDup (map key (f x))) by (apply D; now left).
  assert (DIS : forall z, In z (map key (f x)) -> ~ In z (map key (flat_map f l))).
  { intros z Hz Hz'. apply in_map_iff in Hz, Hz'. destruct Hz as (y & E1 & Hy), Hz' as (y' & E2 & Hy'). apply in_flat_map in Hy'. destruct Hy' as (x' & Hx' & Hy').
    assert (p y = x) by (apply P; [now left|exact Hy]). assert (p y' = x') by (apply P; [now right|exact Hy']). assert (p y = p y') by (apply K; congruence). apply X. congruence. }
  clear - I J DIS. induction (map key (f x)) as [|z l' IH]; [exact I|]. cbn. inversion J as [|? ? Z J']; subst. constructor.
  - intros H. apply in_app_iff in H. destruct H as [H|H]; [contradiction|]. apply (DIS z); [now left|exact H].
  - apply IH; [exact J'|]. intros w Hw. apply DIS. now right.
Qed.
Definition key (c : capacitor) : nat * nat := (cap_i c, cap_j c).
Lemma maybe_single i j v : maybe i j v = [] \/ maybe i j v = [Cap i j v].
Proof. unfold maybe. destruct (fgt v (of_int 0)); [now right|now left]. Qed.
Lemma row_keys n m i : NoDup (map key (row_caps n m i)).
Proof.
  unfold row_caps. rewrite map_app. assert (O : NoDup (map key (offs (row_of m i) i (seq 0 n)))).
  { unfold offs. apply (nodup_flat _ _ cap_j); [intros x y E; now inversion E|apply seq_NoDup| |].
    - intros j _. destruct (Nat.ltb i j); [|constructor]. destruct (maybe_single i j (fopp (nth j (row_of m i) (B754_zero false)))) as [-> | ->]; cbn; repeat constructor. intros [].
    - intros j c _ H. destruct (Nat.ltb i j); [|destruct H]. destruct (maybe_single i j (fopp (nth j (row_of m i) (B754_zero false)))) as [E|E]; rewrite E in H; [destruct H|]. destruct H as [<-|[]]. reflexivity. }
  destruct (Nat.ltb 0 i); [|now rewrite app_nil_r]. destruct (maybe_single i i (ground_f n m i)) as [-> | ->]; [now rewrite app_nil_r|]. cbn.
  apply NoDup_Add with (a := (i, i)) (l := map key (offs (row_of m i) i (seq 0 n))); [|split; [exact O|]].
  - rewrite <- (app_nil_r (map key (offs _ _ _))) at 1. apply Add_app.
  - intros H. apply in_map_iff in H. destruct H as (c & E & H). unfold offs in H. apply in_flat_map in H. destruct H as (j & _ & H).
    destruct (Nat.ltb_spec i j) as [L|L]; [|destruct H]. destruct (maybe_single i j (fopp (nth j (row_of m i) (B754_zero false)))) as [E'|E']; rewrite E' in H; [destruct H|].
    destruct H as [<-|[]]. unfold key in E. cbn in E. inversion E. lia.
Qed.

(** ** Charges *)
Lemma charge_is n m v k : fits n m -> symmetric n m -> v 0%nat = 0 -> (0 < k < n)%nat ->
  charge (flat_map (row_caps n m) (seq 0 n)) v k =
  total (fun j => if Nat.eqb k j then 0 else Rmax 0 (- entry m k j) * (v k - v j)) (seq 0 n) + Rmax 0 (val (ground_f n m k)) * v k.
Proof.
  intros M SY V0 Hk. unfold charge.
  rewrite (total_caps n m _ (fun i j => (if Nat.eqb i k then v i - v (if Nat.eqb i j then 0%nat else j) else 0) +
     (if Nat.eqb (if Nat.eqb i j then 0%nat else j) k then v (if Nat.eqb i j then 0%nat else j) - v i else 0)) M).
  2:{ intros i j x. unfold ends. cbn [cap_i cap_j farad]. unfold value.
      destruct (Nat.eqb i k), (Nat.eqb (if Nat.eqb i j then 0%nat else j) k); ring. }
  rewrite total_plus. f_equal.
  - transitivity (total (fun i => total (fun j => (if Nat.eqb i k then (if Nat.ltb i j then Rmax 0 (- entry m i j) * (v i - v j) else 0) else 0) +
        (if Nat.eqb j k then (if Nat.ltb i j then Rmax 0 (- entry m i j) * (v j - v i) else 0) else 0)) (seq 0 n)) (seq 0 n)).
    { apply total_ext. intros i _. apply total_ext. intros j _. destruct (Nat.ltb_spec i j) as [L|L].
      - destruct (Nat.eqb_spec i j); [lia|]. destruct (Nat.eqb i k), (Nat.eqb j k); ring.
      - destruct (Nat.eqb i k), (Nat.eqb j k); ring. }
    transitivity (total (fun i => (if Nat.eqb i k then total (fun j => if Nat.ltb i j then Rmax 0 (- entry m i j) * (v i - v j) else 0) (seq 0 n) else 0) +
        (if Nat.ltb i k then Rmax 0 (- entry m i k) * (v k - v i) else 0)) (seq 0 n)).
    { apply total_ext. intros i _. rewrite total_plus. f_equal.
      - destruct (Nat.eqb i k); [reflexivity|]. now apply total_0.
      - rewrite (total_seq (fun j => if Nat.ltb i j then Rmax 0 (- entry m i j) * (v j - v i) else 0) n k) by lia. reflexivity. }
    rewrite total_plus, (total_seq (fun i => total (fun j => if Nat.ltb i j then Rmax 0 (- entry m i j) * (v i - v j) else 0) (seq 0 n)) n k) by lia.
    rewrite <- total_plus. apply total_ext. intros j Hj. apply in_seq in Hj. destruct (Nat.ltb_spec k j), (Nat.ltb_spec j k), (Nat.eqb_spec k j); try lia; try ring.
    rewrite (SY j k) by lia. ring.
  - transitivity (total (fun i => if Nat.eqb i k then Rmax 0 (val (ground_f n m i)) * v i else 0) (seq 0 n)).
    + apply total_ext. intros i _. rewrite Nat.eqb_refl. destruct (Nat.eqb_spec 0 k); [lia|]. rewrite V0. destruct (Nat.eqb_spec i k) as [->|].
      * destruct (Nat.ltb_spec 0 k); [ring|lia].
      * destruct (Nat.ltb 0 i); ring.
    + rewrite (total_seq (fun i => Rmax 0 (val (ground_f n m i)) * v i) n k) by lia. reflexivity.
Qed.
Lemma total_abs {A} (f : A -> R) l : Rabs (total f l) <= total (fun x => Rabs (f x)) l.
Proof. induction l as [|x l IH]; cbn; [rewrite Rabs_R0; lra|]. eapply Rle_trans; [apply Rabs_triang|]. lra. Qed.
Lemma total_mono {A} (f h : A -> R) l : (forall x, In x l -> f x <= h x) -> total f l <= total h l.
Proof. induction l as [|x l IH]; intros H; cbn; [lra|]. assert (f x <= h x) by (apply H; now left). assert (total f l <= total h l) by (apply IH; intros; apply H; now right). lra. Qed.
Lemma total_const {A} c (l : list A) : total (fun _ => c) l = INR (List.length l) * c.
Proof. induction l as [|x l IH]; [simpl; ring|]. cbn [total List.length]. rewrite IH, S_INR. ring. Qed.

(** The charges if the matrix [s] should be realised and [m] is within [e] of it *)
Lemma charge_near n m (s e : nat -> R) v k V : fits n m -> symmetric n m -> v 0%nat = 0 -> (0 < k < n)%nat ->
  (forall j, (j < n)%nat -> Rabs (v j) <= V) ->
  (forall j, (j < n)%nat -> j <> k -> entry m k j <= 0) -> 0 <= total s (seq 0 n) ->
  (forall j, (j < n)%nat -> Rabs (entry m k j - s j) <= e j) ->
  Rabs (charge (flat_map (row_caps n m) (seq 0 n)) v k - total (fun j => s j * v j) (seq 0 n)) <=
    (3 * total e (seq 0 n) + ((1 + u) ^ n - 1) * row_size n m k) * V.
Proof.
  intros M SY V0 Hk HV OFF POS NEAR. rewrite (charge_is n m v k M SY V0 Hk). destruct (ground_ok n m k M ltac:(lia)) as [_ G].
  set (g := B2R (ground_f n m k)) in *. set (B := ((1 + u) ^ n - 1) * row_size n m k) in *.
  assert (VP : 0 <= V) by (assert (X := HV 0%nat ltac:(lia)); assert (Y := Rabs_pos (v 0%nat)); lra).
  set (d j := entry m k j - s j). assert (D : Rabs (row_sum n m k - total s (seq 0 n)) <= total e (seq 0 n)).
  { replace (row_sum n m k - total s (seq 0 n)) with (total d (seq 0 n)).
    - eapply Rle_trans; [apply total_abs|]. apply total_mono. intros j Hj. apply in_seq in Hj. apply NEAR. lia.
    - unfold d, Rminus. unfold row_sum. rewrite (total_plus (entry m k) (fun j => - s j)). f_equal.
      rewrite (total_ext _ (fun j => -1 * s j)) by (intros; ring). rewrite total_scale. ring. }
  assert (GS : Rabs (Rmax 0 g - total s (seq 0 n)) <= B + total e (seq 0 n)).
  { rewrite <- (Rmax_right 0 (total s (seq 0 n))) by exact POS. apply abs_le in G, D. apply abs_le. unfold Rmax. repeat destruct (Rle_dec _ _); lra. }
  assert (X : total (fun j => if Nat.eqb k j then 0 else Rmax 0 (- entry m k j) * (v k - v j)) (seq 0 n) =
              total (fun j => s j * v j) (seq 0 n) - v k * total s (seq 0 n) + total (fun j => d j * (v j - v k)) (seq 0 n)).
  { rewrite <- total_scale. transitivity (total (fun j => (s j * v j + -1 * (v k * s j)) + d j * (v j - v k)) (seq 0 n)).
    - apply total_ext. intros j Hj. apply in_seq in Hj. destruct (Nat.eqb_spec k j) as [<-|N]; [ring|]. rewrite Rmax_right by (assert (Y := OFF j ltac:(lia) ltac:(lia)); lra).
      unfold d. ring.
    - rewrite total_plus, total_plus, total_scale. ring. }
  rewrite X.
  replace (total (fun j => s j * v j) (seq 0 n) - v k * total s (seq 0 n) + total (fun j => d j * (v j - v k)) (seq 0 n) + Rmax 0 g * v k - total (fun j => s j * v j) (seq 0 n))
    with ((Rmax 0 g - total s (seq 0 n)) * v k + total (fun j => d j * (v j - v k)) (seq 0 n)) by ring.
  eapply Rle_trans; [apply Rabs_triang|]. rewrite Rabs_mult.
  assert (Y : Rabs (total (fun j => d j * (v j - v k)) (seq 0 n)) <= 2 * V * total e (seq 0 n)).
  { eapply Rle_trans; [apply total_abs|]. rewrite <- total_scale. apply total_mono. intros j Hj. apply in_seq in Hj. rewrite Rabs_mult.
    assert (N := NEAR j ltac:(lia)). fold (d j) in N. assert (P := Rabs_pos (d j)). assert (Q : Rabs (v j - v k) <= 2 * V).
    { assert (Z1 := HV j ltac:(lia)). assert (Z2 := HV k ltac:(lia)). apply abs_le in Z1, Z2. apply abs_le. lra. }
    assert (P2 := Rabs_pos (v j - v k)). rewrite (Rmult_comm (2 * V)). apply Rmult_le_compat; assumption. }
  assert (Z : Rabs (Rmax 0 g - total s (seq 0 n)) * Rabs (v k) <= (B + total e (seq 0 n)) * V).
  { apply Rmult_le_compat; [apply Rabs_pos|apply Rabs_pos|exact GS|apply HV; lia]. }
  lra.
Qed.
