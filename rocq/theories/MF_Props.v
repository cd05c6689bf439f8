(** C98: the capacitors made from the field solver's matrix, in floating point. *)
From Coq Require Import ZArith Reals Lra Lia List Bool String.
From Flocq Require Import Core.Core IEEE754.BinarySingleNaN.
From Verif Require Import FP_Model FP_Proofs MF_Model MF_Spec MF_Proofs MF_Caps.
Import ListNotations.
Local Open Scope R_scope.

(** C98: averaging gives an exactly symmetric matrix with the same diagonal; each entry lies between the two it replaces and is their mean up
    to one rounding.  Equal entries keep their value. *)
Theorem C98_average : forall n m, square n m -> moderate n m ->
  exists m', averaged_off_diagonals m = Some m' /\ square n m' /\ moderate n m' /\ names m' = names m /\
    (forall i, (i < n)%nat -> cell m' i i = cell m i i) /\
    (forall i j, (i < n)%nat -> (j < n)%nat -> cell m' i j = cell m' j i) /\
    (forall i j, (i < n)%nat -> (j < n)%nat -> Rmin (entry m i j) (entry m j i) <= entry m' i j <= Rmax (entry m i j) (entry m j i)) /\
    (forall i j, (i < n)%nat -> (j < n)%nat -> entry m i j = entry m j i -> entry m' i j = entry m i j) /\
    (forall i j, (i < n)%nat -> (j < n)%nat ->
       Rabs (entry m' i j - (entry m i j + entry m j i) / 2) <= half_ulp * Rabs ((entry m i j + entry m j i) / 2) + / 2 ^ 1075).
Proof.
  intros n m SQ (N & L & B). destruct (averaged n m SQ) as (m' & E & SQ' & NM & C). exists m'. split; [exact E|]. split; [exact SQ'|].
  assert (T : 10 ^ 270 <= 10 ^ 299) by (apply Rle_pow; [lra|lia]).
  assert (TP : 0 < / 2 ^ 1075) by (apply Rinv_0_lt_compat, pow_lt; lra). assert (BP : bpow radix2 (-1075) = / 2 ^ 1075).
  { change (-1075)%Z with (- (1075))%Z. rewrite bpow_opp. f_equal. change 1075%Z with (Z.of_nat 1075). rewrite bpow_powerRZ, <- pow_powerRZ. reflexivity. }
  assert (M : forall i j, (i < n)%nat -> (j < n)%nat -> number (cell m' i j) /\
    Rmin (entry m i j) (entry m j i) <= entry m' i j <= Rmax (entry m i j) (entry m j i) /\
    Rabs (entry m' i j - (entry m i j + entry m j i) / 2) <= half_ulp * Rabs ((entry m i j + entry m j i) / 2) + / 2 ^ 1075).
  { intros i j Hi Hj. unfold number, entry. unfold value. rewrite (C i j Hi Hj). destruct (Nat.eqb_spec i j) as [<-|D].
    - split; [now apply N|]. rewrite Rmin_left, Rmax_left by lra. split; [lra|].
      replace (B2R (cell m i i) - (B2R (cell m i i) + B2R (cell m i i)) / 2) with 0 by field. rewrite Rabs_R0.
      assert (P := Rabs_pos ((B2R (cell m i i) + B2R (cell m i i)) / 2)). rewrite u_ulp. assert (U := u_pos). nra.
    - assert (G : forall a b, (a < n)%nat -> (b < n)%nat -> number (mean (cell m a b) (cell m b a)) /\
        Rmin (entry m a b) (entry m b a) <= value (mean (cell m a b) (cell m b a)) <= Rmax (entry m a b) (entry m b a) /\
        Rabs (value (mean (cell m a b) (cell m b a)) - (entry m a b + entry m b a) / 2) <= half_ulp * Rabs ((entry m a b + entry m b a) / 2) + / 2 ^ 1075).
      { intros a b Ha Hb. destruct (mean_ok (cell m a b) (cell m b a) (N a b Ha Hb) (N b a Hb Ha)) as (F & Q & R).
        - eapply Rle_trans; [apply (B a b Ha Hb)|exact T].
        - eapply Rle_trans; [apply (B b a Hb Ha)|exact T].
        - split; [exact F|]. split; [exact Q|]. unfold entry, value. rewrite u_ulp. rewrite BP in R. eapply Rle_trans; [exact R|].
          unfold Rdiv. rewrite Rabs_mult, (Rabs_pos_eq (/ 2)) by lra. lra. }
      unfold mean_at. destruct (Nat.lt_ge_cases i j) as [X|X].
      + rewrite Nat.min_l, Nat.max_r by lia. exact (G i j Hi Hj).
      + rewrite Nat.min_r, Nat.max_l by lia. destruct (G j i Hj Hi) as (G1 & G2 & G3). unfold entry, value in G2, G3. rewrite (Rmin_comm (B2R (cell m i j))), (Rmax_comm (B2R (cell m i j))).
        rewrite (Rplus_comm (B2R (cell m i j))). exact (conj G1 (conj G2 G3)). }
  split; [|split; [exact NM|split; [|split; [|split; [|split]]]]].
  - split; [intros i j Hi Hj; now apply M|]. split; [exact L|]. intros i j Hi Hj. destruct (M i j Hi Hj) as (_ & (Lo & Hi') & _).
    assert (X := B i j Hi Hj). assert (Y := B j i Hj Hi). apply abs_le in X, Y. apply abs_le.
    assert (Rmin_l := Rmin_glb (entry m i j) (entry m j i) (- 10 ^ 270) ltac:(lra) ltac:(lra)).
    assert (Rmax_l := Rmax_lub (entry m i j) (entry m j i) (10 ^ 270) ltac:(lra) ltac:(lra)). lra.
  - intros i Hi. rewrite (C i i Hi Hi), Nat.eqb_refl. reflexivity.
  - intros i j Hi Hj. rewrite (C i j Hi Hj), (C j i Hj Hi), (Nat.eqb_sym j i). destruct (Nat.eqb_spec i j) as [<-|D]; [reflexivity|].
    unfold mean_at. now rewrite (Nat.min_comm j i), (Nat.max_comm j i).
  - intros i j Hi Hj. now apply M.
  - intros i j Hi Hj Q. destruct (M i j Hi Hj) as (_ & R & _). rewrite <- Q in R. rewrite Rmin_left, Rmax_left in R by lra. lra.
  - intros i j Hi Hj. now apply M.
Qed.

(** C98: for each pair of nets at most one capacitor is made, with a positive value.  Between two nets its value is exactly the negated
    entry; to net 0 it is the sum of the row up to rounding; where these are not positive there is none. *)
Theorem C98_capacitors : forall n m, square n m -> moderate n m ->
  exists l, capacitors m = Some l /\ NoDup (map (fun c => (cap_i c, cap_j c)) l) /\
    (forall c, In c l -> number (farad c) /\ 0 < value (farad c) /\ (cap_i c <= cap_j c < n)%nat /\ (cap_i c = cap_j c -> (0 < cap_i c)%nat)) /\
    (forall i j, (i < j < n)%nat -> between l i j = Rmax 0 (- entry m i j)) /\
    (forall i, (0 < i < n)%nat -> Rabs (between l i i - Rmax 0 (row_sum n m i)) <= ((1 + half_ulp) ^ n - 1) * row_size n m i).
Proof.
  intros n m SQ M0. assert (M := moderate_fits n m M0). eexists. split; [exact (capacitors_are n m SQ)|]. split; [|split; [|split]].
  - apply (nodup_flat _ key cap_i); [intros x y E; now inversion E|apply seq_NoDup|intros; apply row_keys|].
    intros i c Hi Hc. apply in_seq in Hi. apply (in_row n m i c M) in Hc; [tauto|lia].
  - intros c Hc. apply in_flat_map in Hc. destruct Hc as (i & Hi & Hc). apply in_seq in Hi. apply (in_row n m i c M) in Hc; [|lia].
    destruct Hc as (E & F & P & R). split; [exact F|]. split; [exact P|]. lia.
  - intros i j H. unfold between. rewrite (total_caps n m _ (fun a b => if Nat.eqb a i && Nat.eqb b j then 1 else 0) M).
    2:{ intros a b x. cbn [cap_i cap_j farad]. unfold value. destruct (Nat.eqb a i && Nat.eqb b j); ring. }
    rewrite <- (total_seq (fun _ => Rmax 0 (- entry m i j)) n i) by lia. apply total_ext. intros a Ha. apply in_seq in Ha.
    destruct (Nat.eqb_spec a i) as [->|D]; cbn [andb].
    + rewrite <- (total_seq (fun k => Rmax 0 (- entry m i k)) n j) by lia. destruct (Nat.eqb_spec i j); [lia|].
      transitivity (total (fun k => if Nat.eqb k j then Rmax 0 (- entry m i k) else 0) (seq 0 n) + 0); [|ring].
      f_equal; [|destruct (Nat.ltb 0 i); ring]. apply total_ext. intros k _. destruct (Nat.eqb_spec k j) as [->|].
      * destruct (Nat.ltb_spec i j); [ring|lia].
      * destruct (Nat.ltb i k); ring.
    + rewrite total_0; [destruct (Nat.ltb 0 a); ring|]. intros k _. destruct (Nat.ltb a k); ring.
  - intros i H. unfold between. rewrite (total_caps n m _ (fun a b => if Nat.eqb a i && Nat.eqb b i then 1 else 0) M).
    2:{ intros a b x. cbn [cap_i cap_j farad]. unfold value. destruct (Nat.eqb a i && Nat.eqb b i); ring. }
    destruct (ground_ok n m i M ltac:(lia)) as [_ G]. rewrite u_ulp.
    replace (total _ (seq 0 n)) with (Rmax 0 (B2R (ground_f n m i))).
    + eapply Rle_trans; [|exact G]. clear. unfold Rmax. repeat destruct (Rle_dec _ _); apply abs_le; unfold Rabs; destruct (Rcase_abs _); lra.
    + rewrite <- (total_seq (fun _ => Rmax 0 (B2R (ground_f n m i))) n i) by lia. apply total_ext. intros a Ha. apply in_seq in Ha.
      destruct (Nat.eqb_spec a i) as [->|D]; cbn [andb].
      * rewrite total_0; [destruct (Nat.ltb_spec 0 i); [ring|lia]|]. intros k _. destruct (Nat.ltb_spec i k); [|reflexivity].
        destruct (Nat.eqb_spec k i); [lia|ring].
      * rewrite total_0; [destruct (Nat.ltb 0 a); ring|]. intros k _. destruct (Nat.ltb a k); ring.
Qed.

(** the mean of the two entries for a pair of nets *)
Definition symmetrised (m : matrix) (i j : nat) : R := (entry m i j + entry m j i) / 2.
(** C98: if the solver's entries between different nets are not positive and no net's mean row sum is negative, the capacitors put the charges on the
    nets which the symmetrised matrix gives, up to rounding. *)
Theorem C98_charge : forall n m, square n m -> moderate n m ->
  (forall i j, (i < n)%nat -> (j < n)%nat -> i <> j -> entry m i j <= 0) ->
  (forall i, (0 < i < n)%nat -> 0 <= total (symmetrised m i) (seq 0 n)) ->
  exists m' l, averaged_off_diagonals m = Some m' /\ capacitors m' = Some l /\
    forall v V i, v 0%nat = 0 -> (forall j, (j < n)%nat -> Rabs (v j) <= V) -> (0 < i < n)%nat ->
      Rabs (charge l v i - total (fun j => symmetrised m i j * v j) (seq 0 n)) <=
        (3 * (INR n + 1) * half_ulp * total (fun j => Rabs (symmetrised m i j)) (seq 0 n) + 4 * INR n / 2 ^ 1075) * V.
Proof.
  intros n m SQ M OFF POS. destruct (C98_average n m SQ M) as (m' & E & SQ' & M' & _ & _ & SY & BT & _ & NR). exists m'. eexists. split; [exact E|].
  split; [exact (capacitors_are n m' SQ')|]. intros v V i V0 HV Hi. rewrite u_ulp in *. assert (UP := u_pos).
  assert (VP : 0 <= V) by (assert (X := HV 0%nat ltac:(lia)); assert (Y := Rabs_pos (v 0%nat)); lra).
  unfold Rdiv. set (t := / 2 ^ 1075) in *. assert (TP : 0 < t) by (unfold t; apply Rinv_0_lt_compat, pow_lt; lra). clearbody t.
  assert (H := charge_near n m' (symmetrised m i) (fun j => u * Rabs (symmetrised m i j) + t) v i V (moderate_fits _ _ M')).
  eapply Rle_trans; [apply H; clear H|].
  - intros a b Ha Hb. unfold entry. now rewrite (SY a b Ha Hb).
  - exact V0.
  - exact Hi.
  - exact HV.
  - intros j Hj N. eapply Rle_trans; [apply (BT i j); lia|]. apply Rmax_lub; apply OFF; lia.
  - apply POS, Hi.
  - intros j Hj. apply NR; lia.
  - clear H. apply Rmult_le_compat_r; [exact VP|]. rewrite total_plus, total_scale, total_const, seq_length.
    assert (RS : row_size n m' i <= (1 + u) * total (fun j => Rabs (symmetrised m i j)) (seq 0 n) + INR n * t).
    { rewrite <- (seq_length n 0) at 3. rewrite <- total_const, <- total_scale, <- total_plus. apply total_mono. intros j Hj. apply in_seq in Hj.
      assert (X := NR i j ltac:(lia) ltac:(lia)). fold (symmetrised m i j) in X.
      replace (entry m' i j) with (symmetrised m i j + (entry m' i j - symmetrised m i j)) by ring. eapply Rle_trans; [apply Rabs_triang|]. lra. }
    assert (SP : 0 <= total (fun j => Rabs (symmetrised m i j)) (seq 0 n)) by (apply total_nonneg; intros; apply Rabs_pos).
    set (S := total (fun j => Rabs (symmetrised m i j)) (seq 0 n)) in *. clearbody S.
    destruct M as (_ & L & _). assert (NP := pos_INR n). assert (NU : INR n * u <= / 1000) by (unfold u; simpl in L; lra).
    assert (W := bernoulli n ltac:(lra)). assert (W1 := pow1 n). set (p := (1 + u) ^ n) in *. clearbody p.
    assert (RP := row_size_pos n m' i). set (r := row_size n m' i) in *. clearbody r. set (nu := INR n * u) in *. assert (NUP : 0 <= nu) by (unfold nu; nra).
    assert (X : (p - 1) * r <= 2 * nu * ((1 + u) * S + INR n * t)) by (apply Rmult_le_compat; unfold nu; lra).
    assert (U1 : u <= / 1000) by (unfold u; lra). assert (Y : 0 <= nu * S) by nra. assert (Z : 0 <= INR n * t) by nra.
    assert (A : nu * S * u <= nu * S * / 1000) by (apply Rmult_le_compat_l; lra). assert (B : nu * (INR n * t) <= / 1000 * (INR n * t)) by (apply Rmult_le_compat_r; lra).
    replace (3 * (INR n + 1) * u * S) with (3 * (nu * S) + 3 * (u * S)) by (unfold nu; ring). lra.
Qed.

(** how small the factor of C98_capacitors is *)
Theorem C98_factor : forall n, INR n <= 10 ^ 6 -> (1 + half_ulp) ^ n - 1 <= 3 / 10 ^ 10.
Proof.
  intros n H. rewrite u_ulp. assert (UP := u_pos). assert (P := pos_INR n). replace (10 ^ 10) with 10000000000 by (simpl; ring).
  assert (X := bernoulli n). simpl in H. unfold u in *. assert (Y := X ltac:(lra)). lra.
Qed.

(** ** A capacitor to ground which the matrix does not have *)
Definition p54 : float := fdiv (of_int 1) (of_int 18014398509481984).
Definition ex_float_row : matrix := Matrix ["N0"; "N1"; "N2"; "N3"]%string
  [[p54; fopp p54; of_int 0; of_int 0];
   [fopp p54; of_int 1; fopp p54; fopp (fsub (of_int 1) (fadd p54 p54))];
   [of_int 0; fopp p54; p54; of_int 0];
   [of_int 0; fopp (fsub (of_int 1) (fadd p54 p54)); of_int 0; fsub (of_int 1) (fadd p54 p54)]].
Lemma sf_val (x : float) s m e : B2SF x = SpecFloat.S754_finite s m e -> is_finite x = true /\ B2R x = F2R (Float radix2 (cond_Zopp s (Zpos m)) e).
Proof. intros H. split; [now rewrite <- is_finite_SF_B2SF, H|now rewrite <- SF2R_B2SF, H]. Qed.
Lemma p54_val : is_finite p54 = true /\ B2R p54 = / 18014398509481984.
Proof.
  destruct (sf_val p54 false 4503599627370496 (-106)) as [F V]; [vm_compute; reflexivity|]. split; [exact F|]. rewrite V. unfold F2R. cbn [Fnum Fexp cond_Zopp].
  change (bpow radix2 (-106)) with (/ IZR (2 ^ 106)). replace (2 ^ 106)%Z with 81129638414606681695789005144064%Z by reflexivity. lra.
Qed.
Lemma rest_val : is_finite (fsub (of_int 1) (fadd p54 p54)) = true /\ B2R (fsub (of_int 1) (fadd p54 p54)) = 1 - / 9007199254740992.
Proof.
  destruct (sf_val (fsub (of_int 1) (fadd p54 p54)) false 9007199254740991 (-53)) as [F V]; [vm_compute; reflexivity|]. split; [exact F|]. rewrite V. unfold F2R. cbn [Fnum Fexp cond_Zopp].
  change (bpow radix2 (-53)) with (/ 9007199254740992). lra.
Qed.
Lemma cells {A} (P : nat -> nat -> A -> Prop) f : (forall i j, (i < 4)%nat -> (j < 4)%nat -> P i j (f i j)) <->
  (P 0 0 (f 0 0) /\ P 0 1 (f 0 1) /\ P 0 2 (f 0 2) /\ P 0 3 (f 0 3) /\ P 1 0 (f 1 0) /\ P 1 1 (f 1 1) /\ P 1 2 (f 1 2) /\ P 1 3 (f 1 3) /\
   P 2 0 (f 2 0) /\ P 2 1 (f 2 1) /\ P 2 2 (f 2 2) /\ P 2 3 (f 2 3) /\ P 3 0 (f 3 0) /\ P 3 1 (f 3 1) /\ P 3 2 (f 3 2) /\ P 3 3 (f 3 3))%nat.
Proof.
  split; [intros H; repeat split; apply H; lia|]. intros H i j Hi Hj. destruct i as [|[|[|[|i]]]]; [| | | |lia]; destruct j as [|[|[|[|j]]]]; try lia; tauto.
Qed.
Definition exact_row (i j : nat) : R :=
  match i, j with
  | 0%nat, 0%nat => / 18014398509481984 | 0%nat, 1%nat => - / 18014398509481984 | 1%nat, 0%nat => - / 18014398509481984 | 1%nat, 1%nat => 1 | 1%nat, 2%nat => - / 18014398509481984
  | 1%nat, 3%nat => - (1 - / 9007199254740992) | 2%nat, 1%nat => - / 18014398509481984 | 2%nat, 2%nat => / 18014398509481984 | 3%nat, 1%nat => - (1 - / 9007199254740992)
  | 3%nat, 3%nat => 1 - / 9007199254740992 | _, _ => 0
  end.
Lemma ex_row_cells : forall i j, (i < 4)%nat -> (j < 4)%nat -> is_finite (cell ex_float_row i j) = true /\ entry ex_float_row i j = exact_row i j.
Proof.
  apply (cells (fun i j c => is_finite c = true /\ value c = exact_row i j) (cell ex_float_row)). destruct p54_val as [F V], rest_val as [F' V'].
  destruct (of_int_ok 0 ltac:(reflexivity)) as [F0 V0]. destruct (of_int_ok 1 ltac:(reflexivity)) as [F1 V1].
  cbv [cell ex_float_row rows nth exact_row value]. rewrite !opp_fin, !opp_val, F, V, F', V', F0, V0, F1, V1. repeat split; reflexivity.
Qed.
Example ex_row_ok : square 4 ex_float_row /\ moderate 4 ex_float_row /\ symmetric 4 ex_float_row /\
  (forall i j, (i < 4)%nat -> (j < 4)%nat -> i <> j -> entry ex_float_row i j <= 0) /\
  (forall i, (0 < i < 4)%nat -> 0 <= total (symmetrised ex_float_row i) (seq 0 4)).
Proof.
  assert (C := ex_row_cells). split; [|split; [|split; [|split]]].
  - repeat split; repeat constructor.
  - split; [intros i j Hi Hj; now apply C|]. split; [simpl; lra|]. intros i j Hi Hj. rewrite (proj2 (C i j Hi Hj)).
    apply Rle_trans with 1; [|apply pow_R1_Rle; lra]. revert i j Hi Hj. apply (cells (fun _ _ x => Rabs x <= 1) exact_row). cbn.
    repeat split; apply abs_le; lra.
  - intros i j Hi Hj. rewrite (proj2 (C i j Hi Hj)), (proj2 (C j i Hj Hi)). revert i j Hi Hj. apply (cells (fun i j x => x = exact_row j i) exact_row). cbn. repeat split.
  - intros i j Hi Hj. rewrite (proj2 (C i j Hi Hj)). revert i j Hi Hj. apply (cells (fun i j x => i <> j -> x <= 0) exact_row). cbn. repeat split; intros; try lra; lia.
  - intros i Hi. cbn [seq total]. unfold symmetrised. rewrite !(fun a b Ha Hb => proj2 (C a b Ha Hb)) by lia.
    destruct i as [|[|[|[|i]]]]; try lia; cbn; lra.
Qed.
Theorem C98_ground_refuted : exists n m l, square n m /\ moderate n m /\ symmetric n m /\
  capacitors m = Some l /\ row_sum n m 1 = 0 /\ between l 1 1 = / 2 ^ 53.
Proof.
  destruct ex_row_ok as (A & B & C & _). exists 4%nat, ex_float_row. eexists. split; [exact A|]. split; [exact B|]. split; [exact C|].
  split; [exact (capacitors_are 4 ex_float_row A)|]. split.
  - unfold row_sum. cbn [seq total]. rewrite !(fun a b Ha Hb => proj2 (ex_row_cells a b Ha Hb)) by lia. cbn. lra.
  - unfold between.
    rewrite (total_caps 4 ex_float_row _ (fun a b => if Nat.eqb a 1 && Nat.eqb b 1 then 1 else 0) (moderate_fits _ _ B)).
    2:{ intros a b x. cbn [cap_i cap_j farad]. unfold value. destruct (Nat.eqb a 1 && Nat.eqb b 1); ring. }
    destruct (sf_val (ground_f 4 ex_float_row 1) false 4503599627370496 (-105)) as [F V]; [vm_compute; reflexivity|].
    cbn [seq total Nat.ltb Nat.leb Nat.eqb andb]. rewrite V. unfold F2R. cbn [Fnum Fexp cond_Zopp].
    change (bpow radix2 (-105)) with (/ IZR (2 ^ 105)). replace (2 ^ 105)%Z with 40564819207303340847894502572032%Z by reflexivity.
    rewrite (Rmax_right 0 (4503599627370496 * / 40564819207303340847894502572032)) by lra.
    replace (/ 2 ^ 53) with (/ 9007199254740992) by (f_equal; ring). lra.
Qed.
(** its capacitors: between 0 and 1, 1 and 2, 1 and 3, and the one of net 1 to net 0 from rounding *)
Example ex_row_caps : option_map (map (fun c => (cap_i c, cap_j c))) (capacitors ex_float_row) = Some [(0, 1); (1, 2); (1, 3); (1, 1)]%nat.
Proof. vm_compute. reflexivity. Qed.

Print Assumptions C98_average.
Print Assumptions C98_capacitors.
Print Assumptions C98_charge.
Print Assumptions C98_factor.
Print Assumptions C98_ground_refuted.
