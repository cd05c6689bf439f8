(** C91: lengths become grid units in spite of rounding. *)
From Coq Require Import ZArith Reals Lra Lia List.
From Flocq Require Import Core.Raux IEEE754.BinarySingleNaN.
From Verif Require Import FP_Model FP_Spec FP_Proofs.
Import ListNotations.
Local Open Scope R_scope.

Lemma usual_unit n d h : usual n d h -> unit_of (lit n d) (IZR n / IZR d).
Proof. intros (P & S & _). now apply lit_unit. Qed.
Lemma usual_value n d h : usual n d h -> exists s, z2norm (lit n d) (computed h) = Some (Zfloor s) /\
  exact h + / 2000000 * (IZR n / IZR d) <= s * (IZR n / IZR d) <= exact h + 3 * / 2000000 * (IZR n / IZR d).
Proof.
  intros U. destruct (usual_unit n d h U) as (FD & PD & ED). destruct (height_near n d h U) as [F N].
  set (D := IZR n / IZR d) in *. set (t := exact h / D).
  assert (T : exact h = t * D) by (unfold t; field; lra).
  assert (B : Rabs t <= 67108864).
  { unfold t, Rdiv. rewrite Rabs_mult, (Rabs_pos_eq (/ D)) by (left; now apply Rinv_0_lt_compat).
    apply Rmult_le_reg_r with D; [exact PD|]. rewrite Rmult_assoc, Rinv_l, Rmult_1_r by lra.
    eapply Rle_trans; [apply exact_size|]. apply U. }
  destruct (z2norm_value (lit n d) D (computed h) t (usual_unit n d h U) F B) as (s & E & S); [rewrite <- T; exact N|].
  exists s. split; [exact E|]. apply abs_le in S. rewrite T. split; rewrite <- Rmult_plus_distr_r; apply Rmult_le_compat_r; lra.
Qed.

(** A height between two grid lines gets the lower one; half a millionth of a unit below a line still counts as that line.  Only within two
    millionths below a line the result may be this line or the one below. *)
Theorem C91_height : forall n d h k, usual n d h ->
  (IZR k - / 2000000) * (IZR n / IZR d) <= exact h <= (IZR k + 1 - / 500000) * (IZR n / IZR d) ->
  z2norm (lit n d) (computed h) = Some k.
Proof.
  intros n d h k U H. destruct (usual_value n d h U) as (s & -> & S). destruct (usual_unit n d h U) as (_ & PD & _). f_equal.
  set (D := IZR n / IZR d) in *. apply Zfloor_imp. rewrite plus_IZR. split.
  - apply Rmult_le_reg_r with D; [exact PD|]. lra.
  - apply Rmult_lt_reg_r with D; [exact PD|]. lra.
Qed.
(** In particular a height on a grid line gets this line, however it was added up. *)
Theorem C91_grid : forall n d h k, usual n d h -> exact h = IZR k * (IZR n / IZR d) -> z2norm (lit n d) (computed h) = Some k.
Proof.
  intros n d h k U H. apply C91_height; [exact U|]. destruct (usual_unit n d h U) as (_ & PD & _). rewrite H. split; apply Rmult_le_compat_r; lra.
Qed.
(** Whatever the height is, it is in the interval of the grid that it gets, up to two millionths. *)
Theorem C91_close : forall n d h, usual n d h -> exists k, z2norm (lit n d) (computed h) = Some k /\
  (IZR k - / 500000) * (IZR n / IZR d) <= exact h < (IZR k + 1) * (IZR n / IZR d).
Proof.
  intros n d h U. destruct (usual_value n d h U) as (s & -> & S). destruct (usual_unit n d h U) as (_ & PD & _).
  exists (Zfloor s). split; [reflexivity|]. set (D := IZR n / IZR d) in *. assert (L := Zfloor_lb s). assert (H := Zfloor_ub s).
  assert (IZR (Zfloor s) * D <= s * D) by (apply Rmult_le_compat_r; lra).
  assert (s * D < (IZR (Zfloor s) + 1) * D) by (apply Rmult_lt_compat_r; lra). lra.
Qed.
(** A layer of the FasterCap model starts and stops on the lines where the technology puts it. *)
Theorem C91_span : forall n d z h a b, usual n d z -> usual n d (Sum z h) ->
  exact z = IZR a * (IZR n / IZR d) -> exact z + exact h = IZR b * (IZR n / IZR d) ->
  span (lit n d) (computed z) (computed h) = Some (a, b).
Proof.
  intros n d z h a b U V A B. unfold span. rewrite (C91_grid n d z a U A).
  change (fadd (computed z) (computed h)) with (computed (Sum z h)). now rewrite (C91_grid n d (Sum z h) b V B).
Qed.
(** Layers that touch each other in the technology touch each other in the model: no gap and no overlap, however their heights were
    added up. *)
Theorem C91_touch : forall n d z h z' k, usual n d (Sum z h) -> usual n d z' -> exact z + exact h = exact z' ->
  (IZR k - / 2000000) * (IZR n / IZR d) <= exact z' <= (IZR k + 1 - / 500000) * (IZR n / IZR d) ->
  z2norm (lit n d) (fadd (computed z) (computed h)) = z2norm (lit n d) (computed z').
Proof.
  intros n d z h z' k U V E H. rewrite (C91_height n d z' k V H). change (fadd (computed z) (computed h)) with (computed (Sum z h)).
  apply C91_height; [exact U|]. cbn [exact]. now rewrite E.
Qed.
(** A higher height never gets a lower line, whatever the numbers are. *)
Theorem C91_order : forall dbu z z' a b, 0 < val dbu -> val z <= val z' -> z2norm dbu z = Some a -> z2norm dbu z' = Some b -> (a <= b)%Z.
Proof.
  intros dbu z z' a b P H A B. unfold z2norm in *. assert (FA := floor_fin _ _ A). assert (FB := floor_fin _ _ B).
  rewrite floor_ok in A by exact FA. rewrite floor_ok in B by exact FB. injection A as <-. injection B as <-.
  destruct (add_fin _ _ FA) as (FQ & _ & ->). destruct (add_fin _ _ FB) as (FQ' & _ & ->).
  apply Zfloor_le. apply fl_mono. apply Rplus_le_compat_r. rewrite !div_fin by (assumption || lra). apply fl_mono.
  apply Rmult_le_compat_r; [left; now apply Rinv_0_lt_compat|exact H].
Qed.

(** Vertical surfaces start and end on the level they belong to, and their corners have the very same float as the horizontal surfaces
    on this level. *)
Theorem C91_meet : forall n d k, (0 < n)%Z -> short n d -> (Z.abs k <= 2 ^ 48)%Z ->
  side (lit n d) (norm2z (lit n d) k) = Some k /\ option_map (corner (lit n d)) (side (lit n d) (norm2z (lit n d) k)) = Some (norm2z (lit n d) k).
Proof.
  intros n d k P S K. assert (X : side (lit n d) (norm2z (lit n d) k) = Some k); [|rewrite X; now split].
  assert (U := lit_unit n d P S). assert (UD := U). destruct UD as (FD & PD & ED). assert (QB := quot_bound n d S).
  assert (D1 : / 9007199254740992 <= IZR n / IZR d).
  { destruct S as (A & B & C). unfold Rdiv. assert (1 <= IZR n) by (apply IZR_le; lia). assert (1 <= IZR d) by (apply IZR_le; lia).
    assert (/ 9007199254740992 <= / IZR d) by (apply Rinv_le; [lra|apply IZR_le; lia]).
    apply Rle_trans with (1 * / IZR d); [lra|]. apply Rmult_le_compat_r; lra. }
  set (D := IZR n / IZR d) in *. rewrite (Rabs_pos_eq D) in QB by lra. apply abs_le in ED.
  assert (UP := u_pos). assert (TP := tiny_pos).
  destruct (of_int_ok k) as [FK VK]; [lia|].
  assert (KB : Rabs (IZR k) <= 281474976710656). { rewrite abs_int. apply IZR_le. exact K. }
  assert (KP : 0 <= Rabs (IZR k)) by apply Rabs_pos.
  assert (DB : 0 < val (lit n d) <= 11 / 10 * D) by (unfold u in ED; lra).
  assert (MB : Rabs (IZR k * val (lit n d)) <= Rabs (IZR k) * (11 / 10 * D)).
  { rewrite Rabs_mult. apply Rmult_le_compat_l; [exact KP|]. rewrite Rabs_pos_eq; lra. }
  assert (PB : Rabs (IZR k) * (11 / 10 * D) <= 281474976710656 * (11 / 10 * D)) by (apply Rmult_le_compat_r; lra).
  destruct (mul_ok (of_int k) (lit n d) FK FD) as [FM VM]; [rewrite VK; eapply Rle_trans; [exact MB|]; eapply Rle_trans; [exact PB|]; unfold huge; lra|].
  rewrite VK in VM.
  assert (E : Rabs (val (norm2z (lit n d) k) - IZR k * D) <= / 13 * D).
  { unfold norm2z. rewrite VM. assert (RR := fl_err (IZR k * val (lit n d))).
    replace (fl (IZR k * val (lit n d)) - IZR k * D) with ((fl (IZR k * val (lit n d)) - IZR k * val (lit n d)) + IZR k * (val (lit n d) - D)) by ring.
    eapply Rle_trans; [apply Rabs_triang|].
    assert (Rabs (IZR k * (val (lit n d) - D)) <= 281474976710656 * (u * D)).
    { rewrite Rabs_mult. apply Rmult_le_compat; try apply Rabs_pos; [exact KB|]. apply abs_le. lra. }
    assert (u * Rabs (IZR k * val (lit n d)) <= u * (281474976710656 * (11 / 10 * D))) by (apply Rmult_le_compat_l; lra).
    unfold u, tiny in *. lra. }
  destruct (quotient (lit n d) D (norm2z (lit n d) k) (IZR k) (/ 13) U FM) as [FQ Q]; [lra|lra|exact E|].
  assert (SH : short 1 2) by (unfold short; lia). destruct (lit_ok 1 2 SH) as [FH _].
  assert (HV : Rabs (val (lit 1 2) - 1 / 2) <= / 100000). { eapply Rle_trans; [apply lit_err; exact SH|]. rewrite Rabs_pos_eq by lra. unfold u. lra. }
  apply abs_le in HV.
  set (e := 3 * u * Rabs (IZR k) + 2 * / 13 + 3 * tiny) in *.
  assert (EB : 0 <= e <= 26 / 100) by (unfold e, u, tiny; split; lra).
  destruct (add_small (fdiv (norm2z (lit n d) k) (lit n d)) (lit 1 2) (IZR k) e FQ FH) as [F A]; [lra|lra|lra|exact Q|].
  unfold side. rewrite floor_ok by exact F. f_equal. apply Zfloor_imp. apply abs_le in A. rewrite plus_IZR.
  assert (u * (Rabs (IZR k) + e + 1) <= 1 / 10) by (unfold u; lra). unfold tiny in *. split; lra.
Qed.

(** ** Widths *)
Lemma width_value n d w v t : (0 < n)%Z -> short n d -> short w v -> 0 <= t <= 281474976710656 -> IZR w / IZR v = t * (IZR n / IZR d) ->
  exists s, is_finite (fdiv (lit w v) (lit n d)) = true /\ val (fdiv (lit w v) (lit n d)) = s /\ Rabs (s - t) <= 6 * u * t + 3 * tiny.
Proof.
  intros P S W T E. assert (U := lit_unit n d P S). assert (UD := U). destruct UD as (FD & PD & ED).
  destruct (lit_ok w v W) as [FW _]. assert (EW := lit_err w v W). rewrite E in EW. set (D := IZR n / IZR d) in *.
  rewrite (Rabs_pos_eq (t * D)) in EW by (apply Rmult_le_pos; lra). assert (UP := u_pos).
  destruct (quotient (lit n d) D (lit w v) t (u * t) U FW) as [FQ Q].
  - rewrite Rabs_pos_eq; lra.
  - unfold u. split; lra.
  - lra.
  - exists (val (fdiv (lit w v) (lit n d))). split; [exact FQ|]. split; [reflexivity|]. rewrite (Rabs_pos_eq t) in Q by lra. assert (0 <= u * t) by (apply Rmult_le_pos; lra). lra.
Qed.
(** A sidewall dielectric whose width is k units becomes k or k - 1 units wide. *)
Theorem C91_width : forall n d w v k, (0 < n)%Z -> short n d -> short w v -> (0 <= k <= 2 ^ 48)%Z -> IZR w / IZR v = IZR k * (IZR n / IZR d) ->
  sidewall_width (lit n d) (lit w v) = Some k \/ sidewall_width (lit n d) (lit w v) = Some (k - 1)%Z.
Proof.
  intros n d w v k P S W K E. assert (KR : 0 <= IZR k <= 281474976710656) by (split; apply IZR_le; lia).
  destruct (width_value n d w v (IZR k) P S W KR E) as (s & F & V & B). apply abs_le in B. unfold sidewall_width. rewrite floor_ok, V by exact F.
  destruct (Rle_or_lt (IZR k) s) as [L|L]; [left|right]; f_equal; apply Zfloor_imp.
  - rewrite plus_IZR. unfold u, tiny in B. lra.
  - rewrite Z.sub_add, minus_IZR. unfold u, tiny in B. lra.
Qed.
(** Away from the grid lines the width is rounded down. *)
Theorem C91_width_between : forall n d w v k, (0 < n)%Z -> short n d -> short w v -> (0 <= k < 2 ^ 26)%Z ->
  (IZR k + / 1000000) * (IZR n / IZR d) <= IZR w / IZR v <= (IZR k + 1 - / 1000000) * (IZR n / IZR d) ->
  sidewall_width (lit n d) (lit w v) = Some k.
Proof.
  intros n d w v k P S W K H. assert (KR : 0 <= IZR k <= 67108863) by (split; apply IZR_le; lia).
  destruct (lit_unit n d P S) as (_ & PD & _).
  set (D := IZR n / IZR d) in *. set (t := IZR w / IZR v / D).
  assert (T : IZR w / IZR v = t * D) by (unfold t, Rdiv; rewrite (Rmult_assoc _ (/ D) D), Rinv_l by lra; ring). rewrite T in H.
  assert (TB : IZR k + / 1000000 <= t <= IZR k + 1 - / 1000000).
  { split; apply Rmult_le_reg_r with D; lra. }
  destruct (width_value n d w v t P S W ltac:(lra) T) as (s & F & V & B). apply abs_le in B. unfold sidewall_width. rewrite floor_ok, V by exact F.
  f_equal. apply Zfloor_imp. rewrite plus_IZR. unfold u, tiny in B. lra.
Qed.
(** Refuted: a width of whole units does not always stay.  43 nm on a grid of 1 nm become 42 nm, 145 nm on a grid of 5 nm become 140 nm. *)
Theorem C91_width_refuted : exists n d w v k, (0 < n)%Z /\ short n d /\ short w v /\ IZR w / IZR v = IZR k * (IZR n / IZR d) /\
  sidewall_width (lit n d) (lit w v) = Some (k - 1)%Z.
Proof. exists 1%Z, 1000%Z, 43%Z, 1000%Z, 43%Z. unfold short. repeat split; try lia. lra. Qed.
Theorem C91_width_5nm_refuted : exists w v k, short w v /\ IZR w / IZR v = IZR k * (5 / 1000) /\ sidewall_width (lit 5 1000) (lit w v) = Some (k - 1)%Z.
Proof. exists 145%Z, 1000%Z, 29%Z. unfold short. repeat split; try lia. lra. Qed.
(** The widths of the shipped technologies come out right on both grids: sky130A (iox, spnit, lint, nild3c and nild4c, topox, topnit),
    ihp_sg13g2 (nitride, pass1 and pass2). *)
Theorem C91_width_shipped :
  map (fun w => sidewall_width (lit 1 1000) (lit w 10000)) [60; 431; 750; 300; 700; 3777; 500; 3000]%Z =
    map (fun w => Some (w * 1000 / 10000))%Z [60; 431; 750; 300; 700; 3777; 500; 3000]%Z /\
  map (fun w => sidewall_width (lit 5 1000) (lit w 10000)) [60; 431; 750; 300; 700; 3777; 500; 3000]%Z =
    map (fun w => Some (w * 1000 / (5 * 10000)))%Z [60; 431; 750; 300; 700; 3777; 500; 3000]%Z.
Proof. split; vm_compute; reflexivity. Qed.
Lemma Rdiv_1 x : x / 1 = x. Proof. lra. Qed.
(** The margins of 8 and 1 micrometres are off by at most one unit. *)
Theorem C91_margin : forall n d um k, (0 < n)%Z -> short n d -> (0 <= um < 2 ^ 53)%Z -> (0 <= k <= 2 ^ 48)%Z -> IZR um = IZR k * (IZR n / IZR d) ->
  margin (lit n d) um = Some k \/ margin (lit n d) um = Some (k - 1)%Z.
Proof.
  intros n d um k P S B K E. assert (X : sidewall_width (lit n d) (lit um 1) = margin (lit n d) um).
  { unfold sidewall_width, margin. assert (L : short um 1) by (unfold short; lia). destruct (lit_ok um 1 L) as [F V].
    destruct (of_int_ok um) as [F' V']; [lia|]. rewrite Rdiv_1 in V. rewrite int_format in V by lia.
    assert (Y : lit um 1 = of_int um); [|now rewrite Y].
    destruct (Z.eq_dec um 0) as [->|N]; [reflexivity|]. apply B2R_inj; [..|congruence].
    - now rewrite is_finite_strict_B2R by (rewrite V; now apply not_0_IZR).
    - now rewrite is_finite_strict_B2R by (rewrite V'; now apply not_0_IZR). }
  rewrite <- X. apply C91_width; try assumption; [unfold short; lia|]. now rewrite Rdiv_1.
Qed.
(** The neighbourhood of an edge reaches over the halo, by at most one unit and a rounding: nothing within the halo is missed. *)
Theorem C91_halo : forall n d w v t, (0 < n)%Z -> short n d -> short w v -> 0 <= t <= 67108864 -> IZR w / IZR v = t * (IZR n / IZR d) ->
  exists r, side_halo_dbu (lit n d) (lit w v) = Some r /\ t - / 1000000 < IZR r <= t + 1 + / 1000000 /\
  (forall k, t = IZR k -> (k <= r <= k + 1)%Z).
Proof.
  intros n d w v t P S W T E. destruct (width_value n d w v t P S W ltac:(lra) E) as (s & F & V & B). apply abs_le in B.
  unfold side_halo_dbu. rewrite int_ok, V by exact F. cbn [option_map]. exists (Ztrunc s + 1)%Z. split; [reflexivity|].
  assert (TR : (Rlt 0 s \/ s <= 0)) by lra. assert (C : IZR (Ztrunc s) <= s + / 1000000000 /\ s - 1 < IZR (Ztrunc s)).
  { destruct (Rle_or_lt 0 s) as [L|L].
    - rewrite Ztrunc_floor by exact L. split; [assert (X := Zfloor_lb s)|assert (X := Zfloor_ub s)]; lra.
    - rewrite Ztrunc_ceil by lra. rewrite (Zceil_imp 0 s); unfold u, tiny in B; cbn; split; lra. }
  rewrite plus_IZR. unfold u, tiny in B. split; [lra|].
  intros k ->. assert (A1 : (k - 1 < Ztrunc s + 1)%Z). { apply lt_IZR. rewrite plus_IZR, minus_IZR. lra. }
  assert (A2 : (Ztrunc s < k + 1)%Z). { apply lt_IZR. rewrite plus_IZR. lra. } lia.
Qed.

(** ** Cases *)
(** the floats 0.3262 + 0.18 and 0.1 + 0.2; the latter is not the float 0.3, but both are on line 300 *)
Example C91_case : usual 1 1000 (Sum (Num 1 10) (Num 2 10)) /\ exact (Sum (Num 1 10) (Num 2 10)) = IZR 300 * (1 / 1000) /\
  z2norm (lit 1 1000) (computed (Sum (Num 1 10) (Num 2 10))) = Some 300%Z /\ z2norm (lit 1 1000) (lit 3 10) = Some 300%Z /\
  Beqb (computed (Sum (Num 1 10) (Num 2 10))) (lit 3 10) = false /\
  z2norm (lit 1 1000) (computed (Sum (Num 3262 10000) (Num 18 100))) = Some 506%Z.
Proof.
  split; [|split; [cbn; lra|vm_compute; now repeat split]].
  unfold usual, short. cbn [written terms size]. unfold short. rewrite !Rabs_pos_eq by lra. repeat split; try lia; lra.
Qed.
Example C91_cases : sidewall_width (lit 1 1000) (lit 43 1000) = Some 42%Z /\ margin (lit 1 1000) 8 = Some 8000%Z /\ margin (lit 5 1000) 1 = Some 200%Z /\
  side_halo_dbu (lit 1 1000) (lit 8 1) = Some 8001%Z /\ side_halo_dbu (lit 5 1000) (lit 8 1) = Some 1601%Z /\
  side (lit 1 1000) (norm2z (lit 1 1000) 506) = Some 506%Z /\ span (lit 5 1000) (lit 3 10) (lit 145 1000) = Some (60, 89)%Z.
Proof. vm_compute. now repeat split. Qed.

Print Assumptions C91_height.
Print Assumptions C91_grid.
Print Assumptions C91_close.
Print Assumptions C91_span.
Print Assumptions C91_touch.
Print Assumptions C91_order.
Print Assumptions C91_meet.
Print Assumptions C91_width.
Print Assumptions C91_width_between.
Print Assumptions C91_width_refuted.
Print Assumptions C91_width_5nm_refuted.
Print Assumptions C91_width_shipped.
Print Assumptions C91_margin.
Print Assumptions C91_halo.
