(** C17: fringe capacitance as a function of distances, length and halo. *)
From Coq Require Import Reals Lra.
From Verif Require Import FR_Model.
Local Open Scope R_scope.

(** the technology data are sensible, and if the ratio is to be scaled to the halo there is one *)
Definition sensible (dbu halo : R) (scale : bool) (oc sc : R) : Prop :=
  0 < dbu /\ 0 <= oc /\ 0 <= sc /\ (scale = true -> 0 < oc /\ 0 < halo).

Lemma alpha_pos : 0 < alpha_scale_factor.
Proof. unfold alpha_scale_factor. lra. Qed.
Lemma two_pi_pos : 0 < 2 / PI.
Proof. apply Rdiv_lt_0_compat; [lra|apply PI_RGT_0]. Qed.
Lemma ratio_0 a : atan_ratio a 0 = 0.
Proof. unfold atan_ratio. rewrite Rmult_0_r, atan_0. ring. Qed.
Lemma ratio_lt1 a d : atan_ratio a d < 1.
Proof.
  unfold atan_ratio. destruct (atan_bound (a * d)) as [_ H].
  apply Rlt_le_trans with (2 / PI * (PI / 2)); [apply Rmult_lt_compat_l; [apply two_pi_pos|exact H]|].
  right. field. apply PI_neq0.
Qed.
Lemma ratio_lt a d d' : 0 < a -> d < d' -> atan_ratio a d < atan_ratio a d'.
Proof.
  intros Ha Hd. unfold atan_ratio. apply Rmult_lt_compat_l; [apply two_pi_pos|].
  apply atan_increasing. now apply Rmult_lt_compat_l.
Qed.
Lemma ratio_le a d d' : 0 <= a -> d <= d' -> atan_ratio a d <= atan_ratio a d'.
Proof.
  intros [Ha|<-] [Hd|<-]; try lra.
  - left. now apply ratio_lt.
  - unfold atan_ratio. rewrite !Rmult_0_l. lra.
Qed.
Lemma ratio_pos a d : 0 < a -> 0 < d -> 0 < atan_ratio a d.
Proof. intros Ha Hd. rewrite <- (ratio_0 a). now apply ratio_lt. Qed.

(** the share of the fringe seen up to a distance *)
Definition share dbu halo (scale : bool) oc d : R :=
  if scale then atan_ratio (oc * alpha_scale_factor) (d * dbu) / atan_ratio (oc * alpha_scale_factor) halo
  else atan_ratio (oc * alpha_scale_factor) (d * dbu).
Lemma fringe_share dbu halo scale len near far oc sc : sensible dbu halo scale oc sc ->
  fringe_cap dbu halo scale len near far oc sc
  = Some ((share dbu halo scale oc far - share dbu halo scale oc near) * (len * dbu) * sc / 1000).
Proof.
  intros (Hd & Ho & Hs & Hh). unfold fringe_cap, share. destruct scale; [|reflexivity].
  destruct (Hh eq_refl) as [Ho' Hh'].
  assert (Hp : 0 < atan_ratio (oc * alpha_scale_factor) halo)
    by (apply ratio_pos; [apply Rmult_lt_0_compat; [exact Ho'|apply alpha_pos]|exact Hh']).
  destruct (Rlt_dec (atan_ratio (oc * alpha_scale_factor) halo) 1) as [_|Hn]; [|exfalso; apply Hn, ratio_lt1].
  destruct (Req_EM_T (atan_ratio (oc * alpha_scale_factor) halo) 0) as [E|_]; [lra|reflexivity].
Qed.
Lemma share_le dbu halo scale oc sc d d' : sensible dbu halo scale oc sc -> d <= d' ->
  share dbu halo scale oc d <= share dbu halo scale oc d'.
Proof.
  intros (Hd & Ho & Hs & Hh) H. unfold share.
  assert (Ha : 0 <= oc * alpha_scale_factor) by (apply Rmult_le_pos; [exact Ho|left; apply alpha_pos]).
  assert (H' : d * dbu <= d' * dbu) by (apply Rmult_le_compat_r; [left; exact Hd|exact H]).
  assert (R := ratio_le _ _ _ Ha H').
  destruct scale; [|exact R]. destruct (Hh eq_refl) as [Ho' Hh'].
  unfold Rdiv. apply Rmult_le_compat_r; [|exact R]. left. apply Rinv_0_lt_compat, ratio_pos; [|exact Hh'].
  apply Rmult_lt_0_compat; [exact Ho'|apply alpha_pos].
Qed.
Lemma share_lt dbu halo scale oc sc d d' : sensible dbu halo scale oc sc -> 0 < oc -> d < d' ->
  share dbu halo scale oc d < share dbu halo scale oc d'.
Proof.
  intros (Hd & Ho & Hs & Hh) Ho' H. unfold share.
  assert (Ha : 0 < oc * alpha_scale_factor) by (apply Rmult_lt_0_compat; [exact Ho'|apply alpha_pos]).
  assert (H' : d * dbu < d' * dbu) by (apply Rmult_lt_compat_r; [exact Hd|exact H]).
  assert (R := ratio_lt _ _ _ Ha H').
  destruct scale; [|exact R]. destruct (Hh eq_refl) as [_ Hh'].
  unfold Rdiv. apply Rmult_lt_compat_r; [|exact R]. apply Rinv_0_lt_compat, ratio_pos; [exact Ha|exact Hh'].
Qed.

Lemma scaled_le x y len dbu sc : 0 <= len -> 0 < dbu -> 0 <= sc -> x <= y -> x * (len * dbu) * sc / 1000 <= y * (len * dbu) * sc / 1000.
Proof.
  intros Hl Hd Hs H. unfold Rdiv. apply Rmult_le_compat_r; [lra|]. apply Rmult_le_compat_r; [exact Hs|].
  apply Rmult_le_compat_r; [|exact H]. apply Rmult_le_pos; lra.
Qed.

(** With sensible technology data fringe_cap always returns a value. *)
Theorem C17_defined : forall dbu halo scale len near far oc sc,
  sensible dbu halo scale oc sc -> exists v, fringe_cap dbu halo scale len near far oc sc = Some v.
Proof. intros. eexists. now apply fringe_share. Qed.

(** The value: the share of the arctangent between the two distances (in um, times a fiftieth of the
    overlap capacitance), of the whole or of the halo, times length (in um) and side overlap capacitance. *)
Theorem C17_value : forall dbu halo scale len near far oc sc,
  sensible dbu halo scale oc sc ->
  let angle um := atan (oc * um / 50) in
  fringe_cap dbu halo scale len near far oc sc =
  Some ((angle (far * dbu) - angle (near * dbu)) / (if scale then angle halo else PI / 2) * (len * dbu) * sc / 1000).
Proof.
  intros dbu halo scale len near far oc sc S angle. rewrite fringe_share by exact S. f_equal.
  assert (A : forall x, oc * alpha_scale_factor * x = oc * x / 50) by (intros x; unfold alpha_scale_factor; field).
  unfold share, atan_ratio. rewrite !A. fold (angle (far * dbu)) (angle (near * dbu)) (angle halo). pose proof PI_RGT_0 as P.
  destruct scale; [|field; lra]. destruct S as (_ & _ & _ & H). destruct (H eq_refl) as [Ho Hh].
  assert (Q : 0 < angle halo). { unfold angle. rewrite <- atan_0. apply atan_increasing. apply Rmult_lt_0_compat; [apply Rmult_lt_0_compat; assumption|lra]. }
  field. split; lra.
Qed.

Theorem C17_nonneg_and_zero : forall dbu halo scale len near far oc sc v,
  sensible dbu halo scale oc sc -> 0 <= len -> near <= far ->
  fringe_cap dbu halo scale len near far oc sc = Some v ->
  0 <= v /\ (near = far -> v = 0).
Proof.
  intros dbu halo scale len near far oc sc v Hs Hl Hn E. rewrite fringe_share in E by exact Hs. injection E as <-.
  assert (H := share_le _ _ _ _ _ _ _ Hs Hn). destruct Hs as (Hd & _ & Hs & _). split.
  - replace 0 with (0 * (len * dbu) * sc / 1000) by (unfold Rdiv; ring). apply scaled_le; lra.
  - intros ->. unfold Rdiv. ring.
Qed.
Theorem C17_monotone : forall dbu halo scale len near far len' near' far' oc sc v v',
  sensible dbu halo scale oc sc -> 0 <= len -> len <= len' -> near' <= near -> near <= far -> far <= far' ->
  fringe_cap dbu halo scale len near far oc sc = Some v ->
  fringe_cap dbu halo scale len' near' far' oc sc = Some v' ->
  v <= v'.
Proof.
  intros dbu halo scale len near far len' near' far' oc sc v v' Hs Hl Hl' Hn Hnf Hf E E'.
  rewrite fringe_share in E, E' by exact Hs. injection E as <-. injection E' as <-.
  assert (A := share_le _ _ _ _ _ _ _ Hs Hn). assert (B := share_le _ _ _ _ _ _ _ Hs Hnf). assert (C := share_le _ _ _ _ _ _ _ Hs Hf).
  destruct Hs as (Hd & _ & Hs & _).
  unfold Rdiv. apply Rmult_le_compat_r; [lra|]. apply Rmult_le_compat_r; [exact Hs|].
  apply Rmult_le_compat; [lra| |lra|].
  - apply Rmult_le_pos; lra.
  - apply Rmult_le_compat_r; lra.
Qed.
(** strictly so for positive specs and lengths *)
Theorem C17_strictly_monotone : forall dbu halo scale len near far near' far' oc sc v v',
  sensible dbu halo scale oc sc -> 0 < oc -> 0 < sc -> 0 < len ->
  near' <= near -> near <= far -> far <= far' -> (near' < near \/ far < far') ->
  fringe_cap dbu halo scale len near far oc sc = Some v ->
  fringe_cap dbu halo scale len near' far' oc sc = Some v' ->
  v < v'.
Proof.
  intros dbu halo scale len near far near' far' oc sc v v' Hs Ho Hsc Hl Hn Hnf Hf H E E'.
  rewrite fringe_share in E, E' by exact Hs. injection E as <-. injection E' as <-.
  assert (A := share_le _ _ _ _ _ _ _ Hs Hn). assert (C := share_le _ _ _ _ _ _ _ Hs Hf).
  assert (D : share dbu halo scale oc far - share dbu halo scale oc near < share dbu halo scale oc far' - share dbu halo scale oc near').
  { destruct H as [H|H]; assert (X := share_lt _ _ _ _ _ _ _ Hs Ho H); lra. }
  destruct Hs as (Hd & _ & _ & _).
  unfold Rdiv. apply Rmult_lt_compat_r; [lra|]. apply Rmult_lt_compat_r; [exact Hsc|].
  apply Rmult_lt_compat_r; [|exact D]. apply Rmult_lt_0_compat; lra.
Qed.
(** splitting the distance range or the edge interval changes nothing *)
Theorem C17_additive : forall dbu halo scale len len' near mid far oc sc v1 v2 v w1 w2 w,
  sensible dbu halo scale oc sc ->
  fringe_cap dbu halo scale len near mid oc sc = Some v1 ->
  fringe_cap dbu halo scale len mid far oc sc = Some v2 ->
  fringe_cap dbu halo scale len near far oc sc = Some v ->
  fringe_cap dbu halo scale len near far oc sc = Some w1 ->
  fringe_cap dbu halo scale len' near far oc sc = Some w2 ->
  fringe_cap dbu halo scale (len + len') near far oc sc = Some w ->
  v = v1 + v2 /\ w = w1 + w2.
Proof.
  intros dbu halo scale len len' near mid far oc sc v1 v2 v w1 w2 w Hs E1 E2 E3 E4 E5 E6.
  rewrite fringe_share in E1, E2, E3, E4, E5, E6 by exact Hs.
  injection E1 as <-. injection E2 as <-. injection E3 as <-. injection E4 as <-. injection E5 as <-. injection E6 as <-.
  split; field.
Qed.
(** unscaled it never reaches length * C / 1000 (strictly below unless that is 0); scaled
    it is exactly that for the range from the edge to the halo, and at most that within it *)
Theorem C17_bounds : forall dbu halo len near far oc sc v w z,
  0 < dbu -> 0 < oc -> 0 <= sc -> 0 < halo -> 0 <= len -> 0 <= near -> near <= far -> far * dbu <= halo ->
  fringe_cap dbu halo false len near far oc sc = Some v ->
  fringe_cap dbu halo true len near far oc sc = Some w ->
  fringe_cap dbu halo true len 0 (halo / dbu) oc sc = Some z ->
  v <= len * dbu * sc / 1000 /\ (0 < len -> 0 < sc -> v < len * dbu * sc / 1000) /\
  v <= w /\ w <= len * dbu * sc / 1000 /\ z = len * dbu * sc / 1000.
Proof.
  intros dbu halo len near far oc sc v w z Hd Ho Hs Hh Hl Hn Hnf Hfh E1 E2 E3.
  assert (S1 : sensible dbu halo false oc sc) by (repeat split; try lra; discriminate).
  assert (S2 : sensible dbu halo true oc sc) by (repeat split; lra).
  rewrite fringe_share in E1 by exact S1. rewrite fringe_share in E2, E3 by exact S2.
  injection E1 as <-. injection E2 as <-. injection E3 as <-.
  set (a := oc * alpha_scale_factor).
  assert (Ha : 0 < a) by (apply Rmult_lt_0_compat; [exact Ho|apply alpha_pos]).
  assert (Hr := ratio_pos a halo Ha Hh). assert (Hr1 := ratio_lt1 a halo).
  assert (N0 : 0 <= atan_ratio a (near * dbu)).
  { rewrite <- (ratio_0 a). apply ratio_le; [lra|]. apply Rmult_le_pos; lra. }
  assert (NF : atan_ratio a (near * dbu) <= atan_ratio a (far * dbu)).
  { apply ratio_le; [lra|]. apply Rmult_le_compat_r; lra. }
  assert (FH : atan_ratio a (far * dbu) <= atan_ratio a halo) by (apply ratio_le; lra).
  assert (F1 := ratio_lt1 a (far * dbu)).
  unfold share. fold a. replace (0 * dbu) with 0 by ring. replace (halo / dbu * dbu) with halo by (field; lra).
  rewrite ratio_0.
  assert (U : forall x, x * (len * dbu) * sc / 1000 = x * (len * dbu * sc / 1000)) by (intros; field).
  rewrite !U. set (M := len * dbu * sc / 1000).
  assert (HM : 0 <= M).
  { unfold M, Rdiv. apply Rmult_le_pos; [|lra]. apply Rmult_le_pos; [|exact Hs]. apply Rmult_le_pos; lra. }
  assert (HM' : 0 < len -> 0 < sc -> 0 < M).
  { intros A B. unfold M, Rdiv. apply Rmult_lt_0_compat; [|lra]. apply Rmult_lt_0_compat; [|exact B]. apply Rmult_lt_0_compat; lra. }
  set (x := atan_ratio a (far * dbu)) in *. set (y := atan_ratio a (near * dbu)) in *. set (h := atan_ratio a halo) in *.
  assert (Q : x / h - y / h = (x - y) / h) by (field; lra).
  assert (Q1 : (x - y) / h <= 1).
  { apply Rmult_le_reg_r with h; [exact Hr|]. unfold Rdiv. rewrite Rmult_assoc, Rinv_l by lra. lra. }
  assert (Q2 : x - y <= (x - y) / h).
  { apply Rmult_le_reg_r with h; [exact Hr|]. unfold Rdiv. rewrite Rmult_assoc, Rinv_l by lra.
    rewrite Rmult_1_r. rewrite <- (Rmult_1_r (x - y)) at 2. apply Rmult_le_compat_l; lra. }
  rewrite Q. repeat split.
  - rewrite <- (Rmult_1_l M) at 2. apply Rmult_le_compat_r; lra.
  - intros A B. rewrite <- (Rmult_1_l M) at 2. apply Rmult_lt_compat_r; [now apply HM'|lra].
  - apply Rmult_le_compat_r; lra.
  - rewrite <- (Rmult_1_l M) at 2. apply Rmult_le_compat_r; lra.
  - replace (h / h - 0 / h) with 1 by (field; lra). ring.
Qed.
(** if the halo, or the overlap capacitance, is zero and scaling is on, there is an exception *)
Theorem C17_zero_halo_raises : forall dbu halo len near far oc sc,
  oc * halo = 0 -> fringe_cap dbu halo true len near far oc sc = None.
Proof.
  intros dbu halo len near far oc sc H. unfold fringe_cap.
  replace (atan_ratio (oc * alpha_scale_factor) halo) with 0.
  - destruct (Rlt_dec 0 1); [|lra]. destruct (Req_EM_T 0 0); [reflexivity|congruence].
  - unfold atan_ratio. replace (oc * alpha_scale_factor * halo) with 0 by (rewrite (Rmult_comm oc), Rmult_assoc, H; ring).
    rewrite atan_0. ring.
Qed.

(** sky130-like numbers satisfy the hypotheses *)
Example C17_example : sensible (1 / 1000) 8 true 25 40 /\ sensible (1 / 1000) 8 false 25 40 /\
  exists v w, fringe_cap (1 / 1000) 8 true 1000 0 1000 25 40 = Some v /\ fringe_cap (1 / 1000) 8 true 1000 1000 3000 25 40 = Some w /\ 0 < v /\ 0 < w.
Proof.
  assert (S : sensible (1 / 1000) 8 true 25 40) by (repeat split; lra).
  split; [exact S|]. split; [repeat split; try lra; discriminate|].
  destruct (C17_defined (1 / 1000) 8 true 1000 0 1000 25 40 S) as [v Ev].
  destruct (C17_defined (1 / 1000) 8 true 1000 1000 3000 25 40 S) as [w Ew].
  destruct (C17_defined (1 / 1000) 8 true 1000 0 0 25 40 S) as [v0 Ev0].
  destruct (C17_defined (1 / 1000) 8 true 1000 1000 1000 25 40 S) as [w0 Ew0].
  destruct (C17_nonneg_and_zero (1 / 1000) 8 true 1000 0 0 25 40 v0 S ltac:(lra) ltac:(lra) Ev0) as [_ V0]. specialize (V0 eq_refl).
  destruct (C17_nonneg_and_zero (1 / 1000) 8 true 1000 1000 1000 25 40 w0 S ltac:(lra) ltac:(lra) Ew0) as [_ W0]. specialize (W0 eq_refl).
  exists v, w. repeat split; auto.
  - assert (X : v0 < v) by (refine (C17_strictly_monotone _ _ _ _ _ _ _ _ _ _ _ _ S _ _ _ _ _ _ _ Ev0 Ev); lra). lra.
  - assert (X : w0 < w) by (refine (C17_strictly_monotone _ _ _ _ _ _ _ _ _ _ _ _ S _ _ _ _ _ _ _ Ew0 Ew); lra). lra.
Qed.

Print Assumptions C17_defined.
Print Assumptions C17_value.
Print Assumptions C17_nonneg_and_zero.
Print Assumptions C17_monotone.
Print Assumptions C17_strictly_monotone.
Print Assumptions C17_additive.
Print Assumptions C17_bounds.
Print Assumptions C17_zero_halo_raises.
