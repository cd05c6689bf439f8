(** Each face has a point that is on no side of a panel, for C105. *)
From Coq Require Import ZArith Reals String List Permutation Lra Lia.
From Flocq Require Import Core.Core IEEE754.BinarySingleNaN.
From Verif Require Import PyBase PyLib FP_Model FP_Spec TG_Model TG_Spec ST_Spec GF_Spec VX_Model VX_Spec VX_Geo VX_Walls VX_Proofs VX_Views.
Import ListNotations.
Local Close Scope Qc_scope.
Local Open Scope list_scope.
Local Open Scope R_scope.

Definition tiny : R := / 100000000.
Lemma tiny_range : 0 < tiny < 1. Proof. unfold tiny. lra. Qed.
Lemma tiny2_range : 0 < tiny * tiny < 1. Proof. unfold tiny. lra. Qed.
(** no line through two points of the grid near the origin meets it *)
Lemma no_line X Y sg bx by_ ex ey : (sg = 1 \/ sg = -1)%Z -> (Z.abs ex <= 8388608)%Z -> (Z.abs ey <= 8388608)%Z -> (ex <> 0 \/ ey <> 0)%Z ->
  (IZR X + IZR sg * tiny - IZR bx) * IZR ey = (IZR Y + tiny * tiny - IZR by_) * IZR ex -> False.
Proof.
  intros S EX EY Ne E.
  assert (Q : IZR ((100000000 * 100000000 * (X - bx) + sg * 100000000) * ey) = IZR ((100000000 * 100000000 * (Y - by_) + 1) * ex)).
  { rewrite !mult_IZR, !plus_IZR, !mult_IZR, !minus_IZR.
    replace ((100000000 * 100000000 * (IZR X - IZR bx) + IZR sg * 100000000) * IZR ey) with (100000000 * 100000000 * ((IZR X + IZR sg * tiny - IZR bx) * IZR ey)) by (unfold tiny; field).
    rewrite E. unfold tiny. field. }
  apply eq_IZR in Q. lia.
Qed.
Lemma line_eq q q' b b' c c' n : q = (1 - n) * b + n * c -> q' = (1 - n) * b' + n * c' -> (q - b) * (c' - b') = (q' - b') * (c - b).
Proof. intros -> ->. ring. Qed.
Lemma off_segment X Y sg (p p' : grid_point) n : (sg = 1 \/ sg = -1)%Z -> p_near p -> p_near p' -> p <> p' ->
  IZR X + IZR sg * tiny = (1 - n) * IZR (fst p) + n * IZR (fst p') -> IZR Y + tiny * tiny = (1 - n) * IZR (snd p) + n * IZR (snd p') -> False.
Proof.
  intros S [N1 N2] [N3 N4] Ne E1 E2. unfold near_origin in *. pose proof (line_eq _ _ _ _ _ _ _ E1 E2) as Q. rewrite <- !minus_IZR in Q.
  apply (no_line X Y sg (fst p) (snd p) (fst p' - fst p) (snd p' - snd p) S); try lia; [|exact Q].
  destruct (Z.eq_dec (fst p' - fst p) 0) as [A|A]; [|now left]. right. intros A'. apply Ne. destruct p, p'. cbn in *. f_equal; lia.
Qed.
Lemma off_tri X Y sg g : (sg = 1 \/ sg = -1)%Z -> tri_ok g -> ~ on_border (IZR X + IZR sg * tiny, IZR Y + tiny * tiny, 0) (flat g).
Proof.
  intros S [C N] (l & m & n & L & M & Nn & Z0 & Su & E). destruct g as [[a b] c]. destruct N as (Na & Nb & Nc). rewrite flat_weighted in E. injection E as E1 E2.
  assert (Nab : a <> b) by (intros ->; destruct b, c; cbn in C; lia). assert (Nbc : b <> c) by (intros ->; destruct a, c; cbn in C; lia). assert (Nac : a <> c) by (intros ->; destruct b, c; cbn in C; lia).
  apply Rmult_integral in Z0. destruct Z0 as [Z0|Z0]; [apply Rmult_integral in Z0; destruct Z0 as [-> | ->]|subst n].
  - apply (off_segment X Y sg b c n S Nb Nc Nbc); rewrite ?E1, ?E2; replace m with (1 - n) by lra; ring.
  - apply (off_segment X Y sg a c n S Na Nc Nac); rewrite ?E1, ?E2; replace l with (1 - n) by lra; ring.
  - apply (off_segment X Y sg a b m S Na Nb Nab); rewrite ?E1, ?E2; replace l with (1 - m) by lra; ring.
Qed.
(** the border of a facet is in its plane *)
Lemma border_plane at_ (linear : forall l m n p q r, at_ (weighted l m n (p, q, r)) = l * at_ p + m * at_ q + n * at_ r) place v g f k x :
  facet_at place v g f -> (forall q, at_ (place q) = k) -> on_border x f -> at_ x = k.
Proof.
  destruct g as [[a b] c], f as [[p q] r]. intros [H _] E I. apply (border_perm _ _ _ _ _ _ _ H) in I.
  destruct I as (l & m & n & _ & _ & _ & _ & S & ->). rewrite linear, !E. replace k with ((l + m + n) * k) at 4 by (rewrite S; lra). lra.
Qed.

Section Off.
Variable u : R.
Hypothesis U : 0 < u.
(** where the panels are *)
Definition source (f : facet) : Prop :=
  exists g v place, tri_ok g /\ facet_at place v g f /\ ((exists k, place = level u (IZR k * u)) \/ exists e, place = wall u (edge_of e)).
Lemma wall_at e : forall q, (if axis e then cy else cx) (wall u (edge_of e) q) = IZR (line_at e) * u.
Proof. intros q. rewrite wall_raise. unfold raise. destruct (axis e); reflexivity. Qed.
Lemma off_level_point x y j f : source f -> ~ on_border ((IZR x + tiny) * u, (IZR y + tiny * tiny) * u, IZR j * u) f.
Proof.
  intros (g & v & place & T & F & [(k & ->)|(e & ->)]) B.
  - pose proof (border_plane cz cz_linear _ _ _ _ (IZR k * u) _ F (fun _ => eq_refl) B) as Q. unfold cz in Q. cbn [snd] in Q. apply Rmult_eq_reg_r in Q; [|lra]. apply eq_IZR in Q. subst k.
    change ((IZR x + tiny) * u, (IZR y + tiny * tiny) * u, IZR j * u) with (lift u (IZR j * u) (IZR x + tiny) (IZR y + tiny * tiny)) in B.
    apply (placed_border (lift u (IZR j * u)) (fun l m n x y x' y' x'' y'' => lift_affine u (IZR j * u) l m n x y x' y' x'' y'') (fun x y x' y' => lift_injective u (IZR j * u) x y x' y' U) _ (level_lift u (IZR j * u)) _ _ _ _ _ F) in B.
    apply (off_tri x y 1 g (or_introl eq_refl) T). rewrite Rmult_1_l. exact B.
  - pose proof (wall_at e) as P. destruct (axis e).
    + apply (border_plane cy cy_linear _ _ _ _ _ _ F P) in B. exact (off_grid _ _ _ _ U tiny2_range B).
    + apply (border_plane cx cx_linear _ _ _ _ _ _ F P) in B. exact (off_grid _ _ _ _ U tiny_range B).
Qed.
Lemma off_inner_point x y k r f : 0 < r < 1 -> source f -> ~ on_border ((IZR x + tiny) * u, (IZR y + tiny * tiny) * u, (IZR k + r) * u) f.
Proof.
  intros Rr (g & v & place & T & F & [(k' & ->)|(e & ->)]) B.
  - pose proof (border_plane cz cz_linear _ _ _ _ (IZR k' * u) _ F (fun _ => eq_refl) B) as Q. exact (off_grid _ _ _ _ U Rr Q).
  - pose proof (wall_at e) as P. destruct (axis e).
    + apply (border_plane cy cy_linear _ _ _ _ _ _ F P) in B. exact (off_grid _ _ _ _ U tiny2_range B).
    + apply (border_plane cx cx_linear _ _ _ _ _ _ F P) in B. exact (off_grid _ _ _ _ U tiny_range B).
Qed.
Lemma raise_same p e x y : on_line p e = true -> raise u (p, true) x y = raise u e (sign (snd e) * x) y.
Proof.
  unfold on_line. rewrite andb_true_iff, Bool.eqb_true_iff, Z.eqb_eq. intros [E1 E2]. unfold raise. rewrite E1, E2. cbn [snd sign].
  destruct (axis (p, true)); (apply f_equal2; [apply f_equal2|]); try reflexivity; destruct (snd e); cbn [sign]; ring.
Qed.
Lemma off_wall_point p j f : source f -> ~ on_border (raise u (p, true) (IZR (start p) + tiny) (IZR j + tiny * tiny)) f.
Proof.
  intros (g & v & place & T & F & [(k & ->)|(e & ->)]) B.
  - pose proof (border_plane cz cz_linear _ _ _ _ (IZR k * u) _ F (fun _ => eq_refl) B) as Q. unfold raise in Q. destruct (axis (p, true)); exact (off_grid _ _ _ _ U tiny2_range Q).
  - destruct (on_line p e) eqn:E.
    + rewrite (raise_same p e _ _ E) in B.
      apply (placed_border (raise u e) (fun l m n x y x' y' x'' y'' => raise_affine u e l m n x y x' y' x'' y'') (fun x y x' y' => raise_injective u e x y x' y' U) _ (wall_raise u e) _ _ _ _ _ F) in B.
      destruct (snd e); cbn [sign] in B.
      * apply (off_tri (start p) j 1 g (or_introl eq_refl) T). rewrite Rmult_1_l. rewrite Rmult_1_l in B. exact B.
      * apply (off_tri (- start p) j (-1) g (or_intror eq_refl) T). replace (-1 * (IZR (start p) + tiny)) with (IZR (- start p) + -1 * tiny) in B by (rewrite opp_IZR; ring). exact B.
    + pose proof (wall_at e) as P. unfold on_line in E.
      assert (Same : axis e = axis (p, true) -> IZR (line_at (p, true)) * u = IZR (line_at e) * u -> False).
      { intros E1 E2. apply Rmult_eq_reg_r in E2; [|lra]. apply eq_IZR in E2. rewrite E1, E2, Z.eqb_refl, Bool.eqb_reflx in E. discriminate. }
      destruct (axis e) eqn:A.
      * apply (border_plane cy cy_linear _ _ _ _ _ _ F P) in B. unfold raise in B. destruct (axis (p, true)) eqn:A'; cbn in B; [exact (Same eq_refl B)|]. rewrite Rmult_1_l in B. exact (off_grid _ _ _ _ U tiny_range B).
      * apply (border_plane cx cx_linear _ _ _ _ _ _ F P) in B. unfold raise in B. destruct (axis (p, true)) eqn:A'; cbn in B; [|exact (Same eq_refl B)]. rewrite Rmult_1_l in B. exact (off_grid _ _ _ _ U tiny_range B).
Qed.
End Off.
