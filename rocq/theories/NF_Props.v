(** C96: a number in a file is the float up to twelve digits; a coordinate on the grid is exact, and different points are different lines.
    C97: a capacitance matrix that is written and read again is the same up to twelve digits, and written again it is the same text. *)
From Coq Require Import ZArith Reals Lra Lia Psatz String Ascii List Qcanon Qreals.
From Flocq Require Import Core.Core IEEE754.BinarySingleNaN.
From Verif Require Import PyBase PyStr FP_Model FP_Spec FP_Proofs NF_Model NF_Spec NF_Proofs NF_Text NF_Round.
From Verif Require CM_Model CM_Props TG_Model.
Import ListNotations.
Local Close Scope Qc_scope.
Local Open Scope string_scope.
Local Open Scope R_scope.

(** * C96 *)
(** The text of any finite float is decimal notation of a number with at most twelve digits, and this is the float up to half a unit of the
    twelfth digit. *)
Theorem C96_near : forall x : float, is_finite x = true -> exists D, decimal (f_text x) D /\ twelve_digits D /\ close (val x) D.
Proof. exact f_near. Qed.
(** A float that rounding errors keep within 4e-13 of a number with at most twelve digits is written as this number. *)
Theorem C96_exact : forall (x : float) D, is_finite x = true -> twelve_digits D -> Rabs (val x - D) <= 4 / 10 ^ 13 * Rabs D -> decimal (f_text x) D.
Proof. exact f_exact. Qed.
(** A text is decimal notation of one number only. *)
Theorem C96_unique : forall s x y, decimal s x -> decimal s y -> x = y.
Proof. exact decimal_unique. Qed.
(** the float of a coordinate *)
Lemma grid_close n d k : (0 < n)%Z -> short n d -> (Z.abs k <= 2 ^ 48)%Z ->
  is_finite (fmul (of_int k) (lit n d)) = true /\ val (fmul (of_int k) (lit n d)) = fl (IZR k * val (lit n d)) /\
  Rabs (fl (IZR k * val (lit n d)) - IZR k * (IZR n / IZR d)) <= 4 / 10 ^ 13 * Rabs (IZR k * (IZR n / IZR d)).
Proof.
  intros N S K. destruct (lit_unit n d N S) as (FD & DP & ED). destruct (of_int_ok k ltac:(lia)) as [FK VK].
  set (D := IZR n / IZR d) in *. set (e := val (lit n d)) in *.
  assert (D1 : / 9007199254740992 <= D).
  { destruct S as (A & B & C). unfold D, Rdiv. assert (1 <= IZR n) by (apply IZR_le; lia). assert (1 <= IZR d) by (apply IZR_le; lia).
    assert (/ 9007199254740992 <= / IZR d) by (apply Rinv_le; [lra|apply IZR_le; lia]).
    apply Rle_trans with (1 * / IZR d); [lra|]. apply Rmult_le_compat_r; lra. }
  assert (D2 : D <= 9007199254740992). { eapply Rle_trans; [apply Rle_abs|]. now apply quot_bound. }
  assert (KB : Rabs (IZR k) <= 281474976710656) by (rewrite abs_int; apply IZR_le; exact K).
  assert (EB : Rabs e <= 2 * D).
  { replace e with (D + (e - D)) by ring. eapply Rle_trans; [apply Rabs_triang|]. rewrite (Rabs_pos_eq D) by lra. unfold u in ED. lra. }
  assert (P : Rabs (IZR k * e) <= 2 * (Rabs (IZR k) * D)).
  { rewrite Rabs_mult. apply Rle_trans with (Rabs (IZR k) * (2 * D)); [apply Rmult_le_compat_l; [apply Rabs_pos|exact EB]|lra]. }
  assert (KD : Rabs (IZR k) * D <= 281474976710656 * 9007199254740992) by (apply Rmult_le_compat; [apply Rabs_pos|lra|exact KB|exact D2]).
  destruct (mul_ok (of_int k) (lit n d) FK FD) as [F V]. { rewrite VK. fold e. unfold huge. lra. }
  rewrite VK in V. fold e in V. split; [exact F|]. split; [exact V|]. rewrite (Rabs_mult (IZR k) D), (Rabs_pos_eq D) by lra.
  destruct (Z.eq_dec k 0) as [-> |Ne].
  { rewrite !Rmult_0_l. replace (fl 0) with 0 by (symmetry; apply round_0; auto with typeclass_instances). rewrite Rminus_0_r, Rabs_R0. lra. }
  assert (K1 : 1 <= Rabs (IZR k)) by (rewrite abs_int; apply IZR_le; lia).
  replace (fl (IZR k * e) - IZR k * D) with ((fl (IZR k * e) - IZR k * e) + IZR k * (e - D)) by ring.
  eapply Rle_trans; [apply Rabs_triang|]. rewrite Rabs_mult. pose proof (fl_err (IZR k * e)) as E.
  assert (X : Rabs (IZR k) * Rabs (e - D) <= u * (Rabs (IZR k) * D)).
  { apply Rle_trans with (Rabs (IZR k) * (u * D)); [apply Rmult_le_compat_l; [apply Rabs_pos|exact ED]|lra]. }
  assert (Y : tiny <= / 10 ^ 13 * (Rabs (IZR k) * D)).
  { assert (1 * / 9007199254740992 <= Rabs (IZR k) * D) by (apply Rmult_le_compat; lra). unfold tiny. lra. }
  assert (M0 : 0 <= Rabs (IZR k) * D) by (apply Rmult_le_pos; lra).
  clearbody e. set (M := Rabs (IZR k) * D) in *. set (A := Rabs (IZR k * e)) in *. set (B := Rabs (IZR k) * Rabs (e - D)) in *.
  set (C := Rabs (fl (IZR k * e) - IZR k * e)) in *. clearbody M A B C. unfold u in E, X. lra.
Qed.
(** The coordinate k of the grid with the unit n / d is written exactly, if it has at most twelve digits. *)
Theorem C96_grid : forall n d k, (0 < n)%Z -> short n d -> (Z.abs k <= 2 ^ 48)%Z -> twelve_digits (IZR k * (IZR n / IZR d)) ->
  decimal (f_text (fmul (of_int k) (lit n d))) (IZR k * (IZR n / IZR d)).
Proof. intros n d k N S K T. destruct (grid_close n d k N S K) as (F & V & C). apply C96_exact; [exact F|exact T|]. now rewrite V. Qed.
(** the space ends a number *)
Lemma no_space_number s x : decimal s x -> all_chars (fun c => negb (Ascii.eqb c " ")) s = true.
Proof. intros H. apply decimal_chars in H. destruct H as [H _]. revert H. apply all_chars_impl. intros c C. destruct (Ascii.eqb_spec c " "); [subst c; discriminate C|reflexivity]. Qed.
Lemma space_inj : forall a a' b b', all_chars (fun c => negb (Ascii.eqb c " ")) a = true -> all_chars (fun c => negb (Ascii.eqb c " ")) a' = true ->
  a ++ " " ++ b = a' ++ " " ++ b' -> a = a' /\ b = b'.
Proof.
  induction a as [|c a IH]; intros a' b b' H H' E; destruct a' as [|c' a']; cbn in *.
  - injection E as E. now split.
  - injection E as E1 E2. rewrite <- E1 in H'. discriminate H'.
  - injection E as E1 E2. rewrite E1 in H. discriminate H.
  - injection E as E1 E2. apply andb_prop in H, H'. destruct (IH a' b b' (proj2 H) (proj2 H') E2) as [-> ->]. now subst c'.
Qed.
(** A point with coordinates i, j, k of the grid, as in FasterCap's files: three exact decimal numbers with blanks between them. *)
Definition grid_vertex (n d i j k : Z) : TG_Model.point := TG_Model.Pt (fmul (of_int i) (lit n d)) (fmul (of_int j) (lit n d)) (fmul (of_int k) (lit n d)).
Definition writable (n d k : Z) : Prop := (Z.abs k <= 2 ^ 48)%Z /\ twelve_digits (IZR k * (IZR n / IZR d)).
Theorem C96_point : forall n d i j k, (0 < n)%Z -> short n d -> writable n d i -> writable n d j -> writable n d k ->
  exists a b c, to_fastcap (grid_vertex n d i j k) = a ++ " " ++ b ++ " " ++ c /\
    decimal a (IZR i * (IZR n / IZR d)) /\ decimal b (IZR j * (IZR n / IZR d)) /\ decimal c (IZR k * (IZR n / IZR d)).
Proof.
  intros n d i j k N S [I1 I2] [J1 J2] [K1 K2].
  exists (f_text (fmul (of_int i) (lit n d))), (f_text (fmul (of_int j) (lit n d))), (f_text (fmul (of_int k) (lit n d))).
  split; [reflexivity|]. repeat split; apply C96_grid; auto.
Qed.
(** Two points have the same line only if they are the same point. *)
Theorem C96_distinct : forall n d i j k i' j' k', (0 < n)%Z -> short n d ->
  writable n d i -> writable n d j -> writable n d k -> writable n d i' -> writable n d j' -> writable n d k' ->
  to_fastcap (grid_vertex n d i j k) = to_fastcap (grid_vertex n d i' j' k') -> i = i' /\ j = j' /\ k = k'.
Proof.
  intros n d i j k i' j' k' N S I J K I' J' K' E. unfold to_fastcap, grid_vertex in E. cbn [TG_Model.px TG_Model.py TG_Model.pz] in E.
  assert (X : forall a, writable n d a -> decimal (f_text (fmul (of_int a) (lit n d))) (IZR a * (IZR n / IZR d))) by (intros a [A B]; now apply C96_grid).
  assert (W : forall a b, writable n d a -> writable n d b -> f_text (fmul (of_int a) (lit n d)) = f_text (fmul (of_int b) (lit n d)) -> a = b).
  { intros a b A B H. pose proof (X a A) as XA. rewrite H in XA. pose proof (C96_unique _ _ _ XA (X b B)) as U.
    assert (0 < IZR n / IZR d) by (destruct S; apply ratio_pos; lia). apply eq_IZR. apply Rmult_eq_reg_r in U; [exact U|lra]. }
  apply space_inj in E; [|eapply no_space_number; apply X; assumption|eapply no_space_number; apply X; assumption]. destruct E as [E1 E].
  apply space_inj in E; [|eapply no_space_number; apply X; assumption|eapply no_space_number; apply X; assumption]. destruct E as [E2 E3]. auto.
Qed.

(** * C97 *)
(** float() of decimal notation is the nearest float. *)
Theorem C97_read : forall s x, decimal s x -> Rabs x <= 10 ^ 300 -> exists y, to_float s = Some y /\ nearest_float x y.
Proof. exact to_float_ok. Qed.
(** A float that is written and read again is off by less than six units of the twelfth decimal place, and written again it gives the same text. *)
Theorem C97_again : forall x : float, is_finite x = true -> val x = 0 \/ ordinary (val x) ->
  exists y, to_float (f_text x) = Some y /\ is_finite y = true /\ Rabs (val y - val x) <= 6 / 10 ^ 12 * Rabs (val x) /\ f_text y = f_text x.
Proof.
  intros x F H. destruct (f_text_q x F) as [[V E] | E].
  - destruct E as [-> | ->].
    + exists (B754_zero false). rewrite V. repeat split. cbn. rewrite Rminus_0_r, Rabs_R0. lra.
    + exists (B754_zero true). rewrite V. repeat split. cbn. rewrite Rminus_0_r, Rabs_R0. lra.
  - destruct H as [Z|O].
    + exists (B754_zero false). rewrite E. destruct (q_text_ok (q_value x)) as [[_ ->] | (s & n & d & q & k & N & D & V & _)].
      * rewrite Z. repeat split. cbn. rewrite Rminus_0_r, Rabs_R0. lra.
      * exfalso. rewrite q_value_ok, Z in V by exact F. pose proof (ratio_pos n d N D). destruct s; cbn in V; lra.
    + rewrite <- q_value_ok in O by exact F. destruct (q_again _ O) as (y & Y & FY & B & _ & T). exists y. rewrite E, <- (q_value_ok x F). auto.
Qed.
(** It is not always the same float. *)
Theorem C97_same_refuted : exists x y : float, is_finite x = true /\ ordinary (val x) /\ to_float (f_text x) = Some y /\ val y <> val x.
Proof.
  assert (S : short 1 3) by (unfold short; lia). destruct (lit_ok 1 3 S) as [F V]. pose proof (lit_err 1 3 S) as E.
  assert (A : Rabs (1 / 3) = 1 / 3) by (apply Rabs_pos_eq; lra). rewrite A in E. apply Rabs_le_inv in E. unfold u in E.
  assert (T1 : 1 <= 10 ^ 290) by (apply pow_R1_Rle; lra).
  assert (T2 : / 10 ^ 290 <= / 10 ^ 2) by (apply Rinv_le; [lra|]; apply Rle_pow; [lra|lia]).
  assert (O : ordinary (val (lit 1 3))) by (unfold ordinary; rewrite Rabs_pos_eq by lra; lra).
  assert (T : f_text (lit 1 3) = "0.333333333333") by (vm_compute; reflexivity).
  assert (D : decimal "0.333333333333" (333333333333 / 10 ^ 12)).
  { exists "0.333333333333", "", (333333333333 / 10 ^ 12), 0%Z. split; [right|split; [left; split; reflexivity|left; split; [reflexivity|cbn; lra]]].
    exists "0", "333333333333", 333333333333%Z. split; [reflexivity|]. split; [discriminate|]. split; [discriminate|]. split; [|reflexivity].
    split; [discriminate|]. split; reflexivity. }
  destruct (C97_read _ _ D) as (y & Y & FY & VY).
  { rewrite Rabs_pos_eq by lra. assert (1 <= 10 ^ 300) by (apply pow_R1_Rle; lra). lra. }
  exists (lit 1 3), y. split; [exact F|]. split; [exact O|]. rewrite T. split; [exact Y|].
  change (val y = fl (333333333333 / 10 ^ 12)) in VY. pose proof (fl_err (333333333333 / 10 ^ 12)) as E2. rewrite <- VY in E2.
  rewrite (Rabs_pos_eq (333333333333 / 10 ^ 12)) in E2 by lra. apply Rabs_le_inv in E2. unfold u, tiny in E2. lra.
Qed.

(** ** Matrices *)
(** a cell is the value of a float *)
Definition float_cell (v : Qc) : Prop := exists x : float, is_finite x = true /\ Q2R v = val x /\ (val x = 0 \/ ordinary (val x)).
Definition float_value (v : Qc) : Prop := exists x : float, is_finite x = true /\ Q2R v = val x.
Definition cell_close (v w : Qc) : Prop := Rabs (Q2R w - Q2R v) <= 6 / 10 ^ 12 * Rabs (Q2R v).
Definition cells (P : Qc -> Prop) (m : CM_Model.cap_matrix) : Prop := Forall (Forall P) (CM_Model.rows m).
Lemma q_text_cell sep v : number_char sep = false -> CM_Props.cell_text sep (cell_fmt v) \/ sep = nl.
Proof.
  intros S. destruct (Ascii.eqb_spec sep nl) as [-> |N]; [now right|left]. destruct (q_near v) as (D & H & _). apply decimal_chars in H. destruct H as [H NE]. split.
  - unfold CM_Props.avoids. revert H. apply all_chars_impl. intros c C.
    destruct (Ascii.eqb_spec c sep) as [-> |]; [congruence|]. destruct (Ascii.eqb_spec c nl) as [-> |]; [discriminate C|reflexivity].
  - apply no_space_trimmed. unfold no_space. revert H. apply all_chars_impl. intros c C. destruct (isspace c) eqn:E; [|reflexivity].
    exfalso. destruct c as [[] [] [] [] [] [] [] []]; vm_compute in C, E; discriminate.
Qed.

Lemma cell_same v : q_text (Q2Qc v) = q_text v.
Proof. apply q_text_same. apply Qred_correct. Qed.
Lemma cell_again v : float_cell v -> exists w, cell_read (cell_fmt v) = Some w /\ float_value w /\
  cell_close v w /\ cell_fmt w = cell_fmt v.
Proof.
  intros (x & F & V & H). unfold cell_read, cell_fmt, cell_close. rewrite V. destruct H as [Z|O].
  - destruct (q_text_ok v) as [[E ->] | (s & n & d & q & k & N & D & E & _)].
    + exists (Q2Qc 0). split; [reflexivity|]. split; [|split].
      * exists (B754_zero false). split; [reflexivity|]. unfold Q2R. cbn. ring.
      * rewrite Z. replace (Q2R (Q2Qc 0)) with 0 by (unfold Q2R; cbn; ring). rewrite Rminus_0_r, Rabs_R0. lra.
      * reflexivity.
    + exfalso. rewrite V, Z in E. pose proof (ratio_pos n d N D). destruct s; cbn in E; lra.
  - rewrite <- V in O. destruct (q_again v O) as (y & -> & FY & B & T & _). exists (Q2Qc (q_value y)). split; [reflexivity|].
    assert (VY : Q2R (Q2Qc (q_value y)) = val y). { rewrite <- (q_value_ok y FY). apply Qeq_eqR. apply Qred_correct. }
    split; [|split].
    + exists y. split; [exact FY|exact VY].
    + rewrite VY, <- V. exact B.
    + rewrite cell_same. exact T.
Qed.
Definition reread (v : Qc) : Qc := match cell_read (cell_fmt v) with Some w => w | None => 0%Qc end.
Lemma reread_some v : cell_read (cell_fmt v) = Some (reread v).
Proof.
  unfold reread. destruct (q_near v) as (D & H & _). destruct (scan_ok _ _ H) as (neg & a & p & S & _). unfold cell_read, cell_fmt, to_float. now rewrite S.
Qed.
(** A matrix of floats that is written and read again has the same names and shape, each cell is a float and off by less than six units of the
    twelfth decimal place, and written again it gives the same file. *)
Theorem C97_matrix : forall sep m, sep <> nl -> number_char sep = false ->
  CM_Model.conductor_names m <> [] -> Forall (CM_Props.cell_text sep) (CM_Model.conductor_names m) ->
  CM_Model.rows m <> [] -> Forall (fun r => r <> []) (CM_Model.rows m) -> cells float_cell m ->
  exists m', CM_Model.parse_csv cell_read sep (CM_Model.write_csv cell_fmt sep m) = Some m' /\
    CM_Model.conductor_names m' = CM_Model.conductor_names m /\
    Forall2 (Forall2 cell_close) (CM_Model.rows m) (CM_Model.rows m') /\
    cells float_value m' /\
    CM_Model.write_csv cell_fmt sep m' = CM_Model.write_csv cell_fmt sep m.
Proof.
  intros sep [names rows] S C N NC R RC Fl. cbn [CM_Model.conductor_names CM_Model.rows] in *. unfold cells in *. cbn [CM_Model.rows] in *.
  exists (CM_Model.CapMatrix names (map (map reread) rows)). split.
  { apply (CM_Props.C23_csv_round_trip cell_fmt cell_read reread sep (CM_Model.CapMatrix names rows)); auto.
    intros v. split; [|apply reread_some]. destruct (q_text_cell sep v C); [assumption|contradiction]. }
  cbn [CM_Model.conductor_names CM_Model.rows]. split; [reflexivity|].
  assert (G : forall v, float_cell v -> float_value (reread v) /\ cell_close v (reread v) /\ cell_fmt (reread v) = cell_fmt v).
  { intros v H. destruct (cell_again v H) as (w & E & A). rewrite reread_some in E. injection E as ->. exact A. }
  unfold CM_Model.write_csv. cbn [CM_Model.conductor_names CM_Model.rows]. clear RC R NC N.
  assert (Row : forall row, Forall float_cell row -> Forall2 cell_close row (map reread row) /\
    Forall float_value (map reread row) /\ map cell_fmt (map reread row) = map cell_fmt row).
  { induction row as [|v row IH]; intros H; [repeat split; constructor|]. inversion H as [|? ? H1 H2]; subst. destruct (IH H2) as (A & B & D).
    destruct (G v H1) as (A1 & B1 & D1). cbn [map]. rewrite D, D1. repeat split; constructor; auto. }
  assert (Rows : Forall2 (Forall2 cell_close) rows (map (map reread) rows) /\
    Forall (Forall float_value) (map (map reread) rows) /\
    map (map cell_fmt) (map (map reread) rows) = map (map cell_fmt) rows).
  { induction rows as [|row rows IH]; [repeat split; constructor|]. inversion Fl as [|? ? H1 H2]; subst. destruct (IH H2) as (A & B & D).
    destruct (Row row H1) as (A1 & B1 & D1). cbn [map]. rewrite D, D1. repeat split; constructor; auto. }
  destruct Rows as (A & B & D). split; [exact A|]. split; [exact B|]. do 2 f_equal.
  clear - D. revert D. generalize (map (map reread) rows). induction rows as [|row rows IH]; intros [|r' rs'] D; try discriminate D; [reflexivity|].
  cbn [map] in D. injection D as D1 D2. cbn [fold_right]. rewrite D1. f_equal. now rewrite (IH _ D2).
Qed.

(** * Examples *)
(** grid of one nanometre: all coordinates below a kilometre are written exactly *)
Example ex_writable : short 1 1000 /\ forall k, (Z.abs k < 10 ^ 12)%Z -> writable 1 1000 k.
Proof.
  split; [unfold short; lia|]. intros k K. split; [lia|]. exists k, (-3)%Z. split; [exact K|]. change (powerRZ 10 (-3)) with (/ 10 ^ 3). lra.
Qed.
Example ex_text : f_text (fmul (of_int (-1234567)) (lit 1 1000)) = "-1234.567" /\ f_text (lit 1 100000) = "1e-05" /\
  to_fastcap (grid_vertex 1 1000 100 (-5) 0) = "0.1 -0.005 0".
Proof. vm_compute. repeat split. Qed.
(** the sum of 0.1 and 0.2 is not the float 0.3, but the texts agree *)
Example ex_sum : f_text (fadd (lit 1 10) (lit 2 10)) = f_text (lit 3 10) /\ fsub (fadd (lit 1 10) (lit 2 10)) (lit 3 10) <> B754_zero false.
Proof. split; [vm_compute; reflexivity|]. intros H. apply (f_equal B2SF) in H. vm_compute in H. discriminate. Qed.
Example ex_matrix : let m := CM_Model.CapMatrix ["a"; "b"] [[Q2Qc (1 # 4); Q2Qc 0]; [Q2Qc 0; Q2Qc (3 # 8)]] in
  number_char ";" = false /\ CM_Model.write_csv cell_fmt ";" m = ("a;b" ++ String nl ("0.25;0" ++ String nl ("0;0.375" ++ String nl "")))%string /\ cells float_cell m.
Proof.
  split; [reflexivity|]. split; [vm_compute; reflexivity|].
  assert (O : forall x, 1 / 10 <= x <= 1 -> ordinary x).
  { intros x H. assert (T1 : 1 <= 10 ^ 290) by (apply pow_R1_Rle; lra).
    assert (T2 : / 10 ^ 290 <= / 10 ^ 1) by (apply Rinv_le; [lra|]; apply Rle_pow; [lra|lia]).
    unfold ordinary. rewrite Rabs_pos_eq by lra. lra. }
  assert (Z : float_cell (Q2Qc 0)). { exists (B754_zero false). split; [reflexivity|]. split; [unfold Q2R; cbn; ring|left; reflexivity]. }
  assert (A : float_cell (Q2Qc (1 # 4))).
  { exists (lit 1 4). assert (E : B2SF (lit 1 4) = SpecFloat.S754_finite false 4503599627370496 (-54)) by (vm_compute; reflexivity).
    assert (V : val (lit 1 4) = 1 / 4). { rewrite <- SF2R_B2SF, E. unfold SF2R, F2R, Fnum, Fexp, cond_Zopp. change (bpow radix2 (-54)) with (/ IZR (2 ^ 54)). change (2 ^ 54)%Z with 18014398509481984%Z. lra. }
    rewrite V. split; [apply lit_ok; unfold short; lia|]. split; [unfold Q2R; cbn; lra|]. right. apply O. lra. }
  assert (B : float_cell (Q2Qc (3 # 8))).
  { exists (lit 3 8). assert (E : B2SF (lit 3 8) = SpecFloat.S754_finite false 6755399441055744 (-54)) by (vm_compute; reflexivity).
    assert (V : val (lit 3 8) = 3 / 8). { rewrite <- SF2R_B2SF, E. unfold SF2R, F2R, Fnum, Fexp, cond_Zopp. change (bpow radix2 (-54)) with (/ IZR (2 ^ 54)). change (2 ^ 54)%Z with 18014398509481984%Z. lra. }
    rewrite V. split; [apply lit_ok; unfold short; lia|]. split; [unfold Q2R; cbn; lra|]. right. apply O. lra. }
  repeat (constructor; auto).
Qed.
Print Assumptions C96_near.
Print Assumptions C96_exact.
Print Assumptions C96_unique.
Print Assumptions C96_grid.
Print Assumptions C96_point.
Print Assumptions C96_distinct.
Print Assumptions C97_read.
Print Assumptions C97_again.
Print Assumptions C97_same_refuted.
Print Assumptions C97_matrix.
