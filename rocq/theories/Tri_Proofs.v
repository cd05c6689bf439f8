From Coq Require Import Lqa Qround.
From Coq Require Qcabs.
From Verif Require Import PyBase QcLra Tri_Model Tri_Spec.
Local Open Scope Qc_scope.

Ltac qcgen := repeat match goal with
  | |- context [this ?x] => is_var x; generalize dependent (this x); intros
  end.

Lemma long_side_spec t i : long_side t i = true ->
  sq_length (psub (corner t ((i + 2) mod 3)) (corner t ((i + 1) mod 3)))
  + sq_length (psub (corner t i) (corner t ((i + 2) mod 3)))
  < sq_length (psub (corner t ((i + 1) mod 3)) (corner t i)) * (1 - Q2Qc (1 # 10000000000)).
Proof. intros H. unfold long_side in H. apply qltb_true in H. exact H. Qed.

Lemma sq_nonneg x : 0 <= x * x.
Proof. qc_prep. nra. Qed.
Lemma sq_length_nonneg a : 0 <= sq_length a.
Proof. unfold sq_length, sprod. pose proof (sq_nonneg (fst a)). pose proof (sq_nonneg (snd a)). qclra. Qed.

(** law of cosines *)
Lemma cosine (A B C : qpt) : sq_length (psub B A) =
  sq_length (psub C B) + sq_length (psub A C) - Q2Qc 2 * sprod (psub A C) (psub B C).
Proof.
  replace (Q2Qc 2) with (1 + 1) by (apply Qc_is_canon; reflexivity).
  unfold sq_length, sprod, psub; cbn [fst snd]. ring.
Qed.
Lemma cosine2 (A B C : qpt) : sq_length (psub A C) =
  sq_length (psub B A) + sq_length (psub C B) - Q2Qc 2 * sprod (psub A B) (psub C B).
Proof.
  replace (Q2Qc 2) with (1 + 1) by (apply Qc_is_canon; reflexivity).
  unfold sq_length, sprod, psub; cbn [fst snd]. ring.
Qed.
Ltac clear_lengths := repeat match goal with
  | |- context [sq_length ?x] => generalize dependent (sq_length x); intros
  | H : context [sq_length ?x] |- _ => generalize dependent (sq_length x); intros
  | |- context [sprod ?x ?y] => generalize dependent (sprod x y); intros
  | H : context [sprod ?x ?y] |- _ => generalize dependent (sprod x y); intros
  end.

(** a long side has an obtuse angle opposite to it *)
Lemma long_side_obtuse t i : (i < 3)%nat -> long_side t i = true -> obtuse t ((i + 2) mod 3).
Proof.
  intros Li L. apply long_side_spec in L.
  assert (G : forall A B C : qpt, sq_length (psub C B) + sq_length (psub A C) < sq_length (psub B A) * (1 - Q2Qc (1 # 10000000000)) ->
     sprod (psub A C) (psub B C) < 0).
  { clear. intros A B C H. pose proof (sq_length_nonneg (psub B A)) as N.
    rewrite (cosine A B C) in *. clear_lengths. qc_prep. lra. }
  unfold obtuse. destruct t as [[A B] C]. destruct i as [|[|[|i]]]; [| | |lia]; cbn in *; apply G; exact L.
Qed.

Lemma not_obtuse_unsplit t : (forall k, (k < 3)%nat -> ~ obtuse t k) -> expand_skinny_tris t = [t].
Proof.
  intros H. unfold expand_skinny_tris, is_skinny_tri.
  destruct (long_side t 0) eqn:E0; [exfalso; apply (H 2%nat); [lia|]; apply (long_side_obtuse t 0); [lia|exact E0]|].
  destruct (long_side t 1) eqn:E1; [exfalso; apply (H 0%nat); [lia|]; apply (long_side_obtuse t 1); [lia|exact E1]|].
  destruct (long_side t 2) eqn:E2; [exfalso; apply (H 1%nat); [lia|]; apply (long_side_obtuse t 2); [lia|exact E2]|].
  reflexivity.
Qed.

(** splitting at a point strictly between two corners tiles the triangle *)
Lemma split_tiles A B C s : area2 (A, B, C) <> 0 -> 0 < s -> s < 1 ->
  let X := padd B (pscale (psub A B) s) in
  tiles [(B, C, X); (X, C, A)] (A, B, C).
Proof.
  intros NA S0 S1 X.
  assert (XF : fst X = (1 - s) * fst B + s * fst A) by (unfold X, padd, pscale, psub; cbn; ring).
  assert (XS : snd X = (1 - s) * snd B + s * snd A) by (unfold X, padd, pscale, psub; cbn; ring).
  clearbody X.
  assert (SN : s <> 0) by (intros ->; apply (Qclt_not_le _ _ S0), Qcle_refl).
  assert (SN1 : 1 - s <> 0).
  { intros E. assert (s = 1) by (replace s with (1 - (1 - s)) by ring; rewrite E; ring). subst s.
    apply (Qclt_not_le _ _ S1), Qcle_refl. }
  split.
  - intros q. split.
    + intros (a & b & c & Ha & Hb & Hc & Hs & Hx & Hy). cbn in *.
      destruct (Qclt_le_dec (b * s) (a * (1 - s))) as [L|L].
      * (* in the part at A *)
        exists (X, C, A). split; [right; left; reflexivity|].
        exists (b / (1 - s)), c, (a - b * s / (1 - s)). split; [|split; [|split; [|split; [|split]]]].
        -- assert (b = b / (1 - s) * (1 - s)) by (field; exact SN1).
           set (u := b / (1 - s)) in *. clearbody u. clear -H Hb S1. qc_prep. nra.
        -- exact Hc.
        -- assert (b * s = b * s / (1 - s) * (1 - s)) by (field; exact SN1).
           set (u := b * s / (1 - s)) in *. clearbody u. clear -H L S1. qc_prep. nra.
        -- transitivity (a + b + c); [field; exact SN1|exact Hs].
        -- rewrite Hx, XF. field. exact SN1.
        -- rewrite Hy, XS. field. exact SN1.
      * exists (B, C, X). split; [left; reflexivity|].
        exists (b - a * (1 - s) / s), c, (a / s). split; [|split; [|split; [|split; [|split]]]].
        -- assert (a * (1 - s) = a * (1 - s) / s * s) by (field; exact SN).
           set (u := a * (1 - s) / s) in *. clearbody u. clear -H L S0. qc_prep. nra.
        -- exact Hc.
        -- assert (a = a / s * s) by (field; exact SN).
           set (u := a / s) in *. clearbody u. clear -H Ha S0. qc_prep. nra.
        -- transitivity (a + b + c); [field; exact SN|exact Hs].
        -- rewrite Hx, XF. field. exact SN.
        -- rewrite Hy, XS. field. exact SN.
    + intros (u & [<-|[<-|[]]] & a & b & c & Ha & Hb & Hc & Hs & Hx & Hy); cbn in *.
      * exists (c * s), (a + c * (1 - s)), b.
        split; [|split; [|split; [exact Hb|split; [|split]]]].
        -- clear -Hc S0. qc_prep. nra.
        -- clear -Ha Hc S1. qc_prep. nra.
        -- transitivity (a + b + c); [ring|exact Hs].
        -- rewrite Hx, XF. ring.
        -- rewrite Hy, XS. ring.
      * exists (c + a * s), (a * (1 - s)), b.
        split; [|split; [|split; [exact Hb|split; [|split]]]].
        -- clear -Ha Hc S0. qc_prep. nra.
        -- clear -Ha S1. qc_prep. nra.
        -- transitivity (a + b + c); [ring|exact Hs].
        -- rewrite Hx, XF. ring.
        -- rewrite Hy, XS. ring.
  - assert (D : forall q a b c a' b' c', combination (B, C, X) a b c q -> combination (X, C, A) a' b' c' q ->
       0 <= a -> 0 <= c' -> a = 0 /\ c' = 0).
    { intros q a b c a' b' c' (Hs & Hx & Hy) (Hs' & Hx' & Hy') P P'.
      assert (E : (a * s + c' * (1 - s)) * area2 (A, B, C) = 0).
      { (* cross product of q - C with X - C, computed in both parts *)
        assert (E1 : (fst X - fst C) * (snd q - snd C) - (snd X - snd C) * (fst q - fst C)
                     = a * s * area2 (A, B, C)).
        { replace b with (1 - a - c) in * by (rewrite <- Hs; ring). rewrite Hx, Hy, XF, XS. cbn. ring. }
        assert (E2 : (fst X - fst C) * (snd q - snd C) - (snd X - snd C) * (fst q - fst C)
                     = - (c' * (1 - s) * area2 (A, B, C))).
        { replace b' with (1 - a' - c') in * by (rewrite <- Hs'; ring). rewrite Hx', Hy', XF, XS. cbn. ring. }
        replace ((a * s + c' * (1 - s)) * area2 (A, B, C))
          with (a * s * area2 (A, B, C) - - (c' * (1 - s) * area2 (A, B, C))) by ring.
        rewrite <- E1, <- E2. ring. }
      apply Qcmult_integral in E. destruct E as [E|E]; [|contradiction].
      assert (Q1 : 0 <= a * s) by (clear -P S0; qc_prep; nra).
      assert (Q2 : 0 <= c' * (1 - s)) by (clear -P' S1; qc_prep; nra).
      assert (Z1 : a * s = 0) by (clear -E Q1 Q2; qc_prep; lra).
      assert (Z2 : c' * (1 - s) = 0) by (clear -E Q1 Q2; qc_prep; lra).
      apply Qcmult_integral in Z1. apply Qcmult_integral in Z2. tauto. }
    intros i j u w q Nij Eu Ew (a & b & c & Pa & Pb & Pc & K) (a' & b' & c' & Pa' & Pb' & Pc' & K').
    destruct i as [|[|i]], j as [|[|j]]; cbn in Eu, Ew; try congruence;
      try (destruct i; discriminate); try (destruct j; discriminate).
    + injection Eu as <-. injection Ew as <-.
      destruct (D _ _ _ _ _ _ _ K K') as [Z _]; auto using Qclt_le_weak.
      rewrite Z in Pa. apply (Qclt_not_le _ _ Pa), Qcle_refl.
    + injection Eu as <-. injection Ew as <-.
      destruct (D _ _ _ _ _ _ _ K' K) as [_ Z]; auto using Qclt_le_weak.
      rewrite Z in Pc. apply (Qclt_not_le _ _ Pc), Qcle_refl.
Qed.

Lemma foot_inside A B C :
  sq_length (psub C B) + sq_length (psub A C) < sq_length (psub B A) * (1 - Q2Qc (1 # 10000000000)) ->
  let s := sprod (psub A B) (psub C B) / sq_length (psub B A) in
  0 < s /\ s < 1 /\
  sprod (psub C (padd B (pscale (psub A B) s))) (psub A B) = 0.
Proof.
  intros H s.
  assert (P : 0 < sq_length (psub B A)).
  { pose proof (sq_length_nonneg (psub C B)) as N1. pose proof (sq_length_nonneg (psub A C)) as N2.
    set (u := sq_length (psub C B)) in *. set (v := sq_length (psub A C)) in *.
    set (w := sq_length (psub B A)) in *. clearbody u v w. clear s. qc_prep. nra. }
  assert (PN : sq_length (psub B A) <> 0).
  { intros E. rewrite E in P. apply (Qclt_not_le _ _ P), Qcle_refl. }
  assert (E : s * sq_length (psub B A) = sprod (psub A B) (psub C B)).
  { unfold s. field. exact PN. }
  assert (E2 : sprod (psub C (padd B (pscale (psub A B) s))) (psub A B)
     = sprod (psub A B) (psub C B) - s * sq_length (psub B A)).
  { unfold sprod, sq_length, sprod, psub, padd, pscale; cbn. ring. }
  split; [|split; [|rewrite E2, E; ring]].
  - assert (K : Q2Qc 2 * (s * sq_length (psub B A)) =
       sq_length (psub B A) + sq_length (psub C B) - sq_length (psub A C)).
    { rewrite E, (cosine2 A B C). ring. }
    clearbody s. clear E E2 PN. pose proof (sq_length_nonneg (psub C B)) as N1.
    clear_lengths. qc_prep. nra.
  - assert (K : Q2Qc 2 * (s * sq_length (psub B A)) =
       sq_length (psub B A) + sq_length (psub C B) - sq_length (psub A C)).
    { rewrite E, (cosine2 A B C). ring. }
    clearbody s. clear E E2 PN. pose proof (sq_length_nonneg (psub C B)) as N1. pose proof (sq_length_nonneg (psub A C)) as N2.
    clear_lengths. qc_prep. nra.
Qed.

Lemma combination_rot A B C a b c q : combination (A, B, C) a b c q <-> combination (B, C, A) b c a q.
Proof.
  cbn. split; intros (H1 & H2 & H3); (split; [|split]); rewrite ?H2, ?H3, <- ?H1; ring.
Qed.
Lemma in_tri_rot A B C q : in_tri (A, B, C) q <-> in_tri (B, C, A) q.
Proof.
  split; intros (a & b & c & H1 & H2 & H3 & K).
  - exists b, c, a. rewrite <- combination_rot. auto.
  - exists c, a, b. rewrite combination_rot. auto.
Qed.
Lemma tiles_rot l A B C : tiles l (A, B, C) -> tiles l (B, C, A).
Proof. intros [H1 H2]. split; [|exact H2]. intros q. rewrite <- in_tri_rot. apply H1. Qed.
Lemma area2_rot A B C : area2 (A, B, C) = area2 (B, C, A).
Proof. cbn. ring. Qed.

(** the condition in the code is the one of the specification *)
Lemma stretched_long t i : long_side t i = true <-> stretched t i.
Proof.
  unfold long_side, stretched. rewrite qltb_true.
  assert (E : forall a b, sq_length (psub a b) = dist2 a b) by reflexivity.
  assert (S : forall a b, dist2 a b = dist2 b a) by (intros; unfold dist2; ring).
  rewrite !E, (S (corner t ((i + 2) mod 3)) (corner t ((i + 1) mod 3))), (S (corner t ((i + 1) mod 3)) (corner t i)), (S (corner t i) (corner t ((i + 2) mod 3))). reflexivity.
Qed.

(** ** rounding *)
Lemma rounded_near x : x - Q2Qc (1 # 2) <= Q2Qc (inject_Z (rounded x)) /\ Q2Qc (inject_Z (rounded x)) <= x + Q2Qc (1 # 2).
Proof.
  unfold rounded. destruct (qltb 0 x).
  - pose proof (Qfloor_le (this (x + Q2Qc (1 # 2)))) as F. pose proof (Qlt_floor (this (x + Q2Qc (1 # 2)))) as G.
    rewrite inject_Z_plus in G. change (inject_Z 1) with 1%Q in G. set (f := Qfloor _) in *. clearbody f. rewrite this_plus, this_Q2Qc in F, G. split; qc_prep; lra.
  - pose proof (Qle_ceiling (this (x - Q2Qc (1 # 2)))) as F. pose proof (Qceiling_lt (this (x - Q2Qc (1 # 2)))) as G.
    unfold Z.sub in G. rewrite inject_Z_plus in G. change (inject_Z (- (1))) with (-1)%Q in G. set (f := Qceiling _) in *. clearbody f. rewrite this_minus, this_Q2Qc in F, G. split; qc_prep; lra.
Qed.
Lemma rounded_whole n : rounded (Q2Qc (inject_Z n)) = n.
Proof.
  destruct (rounded_near (Q2Qc (inject_Z n))) as [L U]. set (m := rounded _) in *. clearbody m.
  assert (L' : (inject_Z n - (1 # 2) <= inject_Z m)%Q) by (clear U; qc_prep; lra).
  assert (U' : (inject_Z m <= inject_Z n + (1 # 2))%Q) by (clear L; qc_prep; lra).
  unfold Qle, inject_Z in L', U'. cbn in L', U'. lia.
Qed.
Lemma abs_half x : - Q2Qc (1 # 2) <= x -> x <= Q2Qc (1 # 2) -> Qcabs.Qcabs x <= Q2Qc (1 # 2).
Proof. intros L U. apply Qcabs.Qcabs_Qcle_condition. auto. Qed.
Lemma times_next a t p : next_to (padd p (vector_times a t)) (padd p (pscale a t)).
Proof.
  unfold next_to, vector_times, pscale, padd. cbn [fst snd]. destruct (rounded_near (fst a * t)) as [L U], (rounded_near (snd a * t)) as [L' U'].
  split; apply abs_half; qclra.
Qed.
Lemma whole_plus m n : Q2Qc (inject_Z m) + Q2Qc (inject_Z n) = Q2Qc (inject_Z (m + n)).
Proof. apply Qc_is_canon. rewrite this_plus, !this_Q2Qc, inject_Z_plus. reflexivity. Qed.
Lemma whole_minus m n : Q2Qc (inject_Z m) - Q2Qc (inject_Z n) = Q2Qc (inject_Z (m - n)).
Proof. apply Qc_is_canon. rewrite this_minus, !this_Q2Qc. unfold Z.sub. rewrite inject_Z_plus, inject_Z_opp. reflexivity. Qed.
Lemma times_grid a t p : grid_point p -> grid_point (padd p (vector_times a t)).
Proof. intros (x & y & ->). unfold grid_point, padd, vector_times. cbn [fst snd]. rewrite !whole_plus. eauto. Qed.

Lemma one_axis a b c d e : (d - d) * (d - d) + (b - a) * (b - a) <> 0 -> (a - b) * (((d - d) * (e - d) + (a - b) * (c - b)) / ((d - d) * (d - d) + (b - a) * (b - a))) = c - b.
Proof.
  assert (E : (d - d) * (d - d) + (b - a) * (b - a) = (a - b) * (a - b)) by ring. assert (E' : (d - d) * (e - d) + (a - b) * (c - b) = (a - b) * (c - b)) by ring. rewrite E, E'. intros N.
  assert (N' : a - b <> 0) by (intros Z; apply N; rewrite Z; ring). set (x := a - b) in *. clearbody x. field. exact N'.
Qed.
Lemma none_axis a x : (a - a) * x = Q2Qc (inject_Z 0).
Proof. change (Q2Qc (inject_Z 0)) with 0. ring. Qed.
(** the foot of the altitude on a side along an axis is on the grid *)
Lemma foot_axis A B C : grid_point B -> grid_point C -> along_axis A B -> sq_length (psub B A) <> 0 ->
  let s := sprod (psub A B) (psub C B) / sq_length (psub B A) in
  padd B (vector_times (psub A B) s) = padd B (pscale (psub A B) s).
Proof.
  intros GB GC Ax N s.
  assert (H : exists m n, pscale (psub A B) s = (Q2Qc (inject_Z m), Q2Qc (inject_Z n))).
  { destruct GB as (bx & by' & ->), GC as (cx & cy & ->). unfold s, along_axis, pscale, psub, sprod, sq_length, sprod in *. cbn [fst snd] in *. destruct Ax as [E|E].
    - exists 0%Z, (cy - by')%Z. rewrite <- whole_minus. rewrite E in *. apply f_equal2; [apply none_axis|]. now apply one_axis.
    - exists (cx - bx)%Z, 0%Z. rewrite <- whole_minus. rewrite E in *. apply f_equal2; [|apply none_axis].
      rewrite (Qcplus_comm ((Q2Qc (inject_Z bx) - _) * _)) in *. rewrite (Qcplus_comm ((fst A - _) * _)). now apply one_axis. }
  destruct H as (m & n & H). f_equal. rewrite H. unfold vector_times. pose proof (f_equal fst H) as H1. pose proof (f_equal snd H) as H2. cbn [fst snd pscale] in H1, H2. now rewrite H1, H2, !rounded_whole.
Qed.

(** what the rounding of the foot changes in the area *)
Lemma area_change A B C F X s : F = padd B (pscale (psub A B) s) -> next_to X F ->
  Qcabs.Qcabs (area2 (B, C, X) + area2 (X, C, A) - area2 (A, B, C)) <= Q2Qc (1 # 2) * (Qcabs.Qcabs (fst A - fst B) + Qcabs.Qcabs (snd A - snd B)).
Proof.
  intros EF [NX NY].
  assert (E : area2 (B, C, X) + area2 (X, C, A) - area2 (A, B, C) = (snd X - snd F) * (fst A - fst B) + - ((fst X - fst F) * (snd A - snd B))).
  { rewrite EF. unfold area2, padd, pscale, psub. destruct A, B, C, X. cbn [fst snd]. ring. }
  rewrite E. eapply Qcle_trans; [apply Qcabs.Qcabs_triangle|]. rewrite Qcabs.Qcabs_opp, !Qcabs.Qcabs_Qcmult.
  pose proof (Qcabs.Qcabs_nonneg (fst A - fst B)) as P. pose proof (Qcabs.Qcabs_nonneg (snd A - snd B)) as P'.
  set (a := Qcabs.Qcabs (fst A - fst B)) in *. set (b := Qcabs.Qcabs (snd A - snd B)) in *. set (e := Qcabs.Qcabs (fst X - fst F)) in *. set (f := Qcabs.Qcabs (snd X - snd F)) in *.
  clearbody a b e f. clear E. qc_prep. nra.
Qed.

(** the corner at the obtuse angle, the foot point and the two other corners *)
Lemma split_first_two t i : (i < 2)%nat -> long_side t i = true -> area2 t <> 0 -> integral t ->
  (forall j, (j < i)%nat -> long_side t j = false) ->
  let A := corner t i in let B := corner t ((i + 1) mod 3) in let C := corner t ((i + 2) mod 3) in
  exists F X u, 0 < u /\ u < 1 /\ F = padd B (pscale (psub A B) u) /\ sprod (psub C F) (psub A B) = 0 /\
    expand_skinny_tris t = [(B, C, X); (X, C, A)] /\ grid_point X /\ next_to X F /\
    Qcabs.Qcabs (area2 (B, C, X) + area2 (X, C, A) - area2 t) <= Q2Qc (1 # 2) * (Qcabs.Qcabs (fst A - fst B) + Qcabs.Qcabs (snd A - snd B)) /\
    (along_axis A B -> X = F /\ tiles (expand_skinny_tris t) t).
Proof.
  intros Li L N In Hj A B C. pose proof (long_side_spec _ _ L) as LS. fold A B C in LS.
  assert (SN : sq_length (psub B A) <> 0).
  { intros Z. rewrite Z in LS. pose proof (sq_length_nonneg (psub C B)) as N1. pose proof (sq_length_nonneg (psub A C)) as N2. clear -LS N1 N2. clear_lengths. qc_prep. lra. }
  destruct (foot_inside A B C LS) as (P0 & P1 & Alt).
  set (s := sprod (psub A B) (psub C B) / sq_length (psub B A)) in *.
  set (X := padd B (vector_times (psub A B) s)).
  assert (E : expand_skinny_tris t = [(B, C, X); (X, C, A)]).
  { unfold expand_skinny_tris, is_skinny_tri. destruct i as [|[|i]]; [| |lia].
    - rewrite L. reflexivity.
    - rewrite (Hj 0%nat) by lia. rewrite L. reflexivity. }
  assert (AR : area2 t = area2 (A, B, C)).
  { destruct t as [[a b] c]. destruct i as [|[|i]]; [| |lia]; [reflexivity|]. apply area2_rot. }
  exists (padd B (pscale (psub A B) s)), X, s. repeat (split; [solve [auto]|]).
  split; [apply times_grid, In|]. split; [apply times_next|]. split.
  { rewrite AR. apply (area_change A B C (padd B (pscale (psub A B) s)) X s); [reflexivity|apply times_next]. }
  intros Ax. assert (EX : X = padd B (pscale (psub A B) s)) by (apply foot_axis; [apply In|apply In|exact Ax|exact SN]).
  split; [exact EX|]. rewrite E, EX. rewrite AR in N. pose proof (split_tiles A B C s N P0 P1) as T. cbv zeta in T.
  destruct t as [[a b] c]. destruct i as [|[|i]]; [| |lia]; [exact T|]. apply tiles_rot. apply tiles_rot. exact T.
Qed.

(** at most one side is long *)
Lemma long_side_unique t i j : (i < 3)%nat -> (j < 3)%nat -> long_side t i = true -> long_side t j = true -> i = j.
Proof.
  intros Li Lj H1 H2. destruct (Nat.eq_dec i j) as [|N]; [assumption|exfalso].
  apply long_side_obtuse in H1; [|exact Li]. apply long_side_obtuse in H2; [|exact Lj].
  assert (G : forall A B C : qpt, sprod (psub B A) (psub C A) < 0 -> sprod (psub C B) (psub A B) < 0 -> False).
  { clear. intros A B C K1 K2. pose proof (sq_length_nonneg (psub A B)) as N.
    assert (S : sprod (psub B A) (psub C A) + sprod (psub C B) (psub A B) = sq_length (psub A B))
      by (unfold sq_length, sprod, psub; cbn [fst snd]; ring).
    clear_lengths. qc_prep. lra. }
  destruct t as [[a b] c]. unfold obtuse in *.
  assert (C : forall x y : qpt, sprod x y = sprod y x) by (intros; unfold sprod; ring).
  destruct i as [|[|[|i]]], j as [|[|[|j]]]; try lia; cbn in H1, H2;
  first [ solve [eapply (G _ _ _ H1); exact H2] | solve [eapply (G _ _ _ H2); exact H1]
        | rewrite C in H1; solve [eapply (G _ _ _ H1); rewrite C; exact H2] ].
Qed.

(** the two parts of the triangle with the corners (0, 0), (5, 1) and (10, 0) stand out of it *)
Definition bad_tri : qpt * qpt * qpt :=
  ((0, 0), (Q2Qc 5, 1), (Q2Qc 10, 0)).
Lemma bad_tri_not_tiled : area2 bad_tri <> 0 /\ long_side bad_tri 2 = true /\ obtuse bad_tri 1 /\
  ~ tiles (expand_skinny_tris bad_tri) bad_tri.
Proof.
  split; [qcneq|]. split; [vm_compute; reflexivity|]. split; [vm_compute; reflexivity|].
  intros [H _].
  assert (S : is_skinny_tri bad_tri = Some true) by (vm_compute; reflexivity).
  set (X := (0, Q2Qc 2) : qpt).
  assert (Q : in_tri bad_tri X).
  { apply H. unfold expand_skinny_tris. rewrite S.
    eexists. split; [left; reflexivity|].
    exists 0, 0, 1. split; [apply Qcle_refl|]. split; [apply Qcle_refl|]. split; [vm_compute; discriminate|].
    split; [qceq|split; qceq]. }
  destruct Q as (a & b & c & Ha & Hb & Hc & Hs & Hx & Hy). unfold bad_tri in *. cbn [fst snd] in Hs, Hx, Hy. clear H Hx S.
  assert (E : b = Q2Qc 2) by (change (snd X) with (Q2Qc 2) in Hy; rewrite Hy; ring). clear Hy X. qc_prep. lra.
Qed.
(** the foot of the altitude of the triangle with the corners (0, 0), (10, 3) and (5, 3) is rounded to (5, 2); the parts leave a gap at the long side *)
Definition slanted_tri : qpt * qpt * qpt := ((0, 0), (Q2Qc 10, Q2Qc 3), (Q2Qc 5, Q2Qc 3)).
Lemma slanted_tri_gap : area2 slanted_tri <> 0 /\ stretched slanted_tri 0 /\ ~ tiles (expand_skinny_tris slanted_tri) slanted_tri.
Proof.
  split; [qcneq|]. split; [vm_compute; reflexivity|]. intros [H _].
  assert (S : is_skinny_tri slanted_tri = Some false) by (vm_compute; reflexivity).
  assert (Q : in_tri slanted_tri (Q2Qc 6, Q2Qc (9 # 5))).
  { exists (Q2Qc (2 # 5)), (Q2Qc (3 # 5)), 0. split; [vm_compute; discriminate|]. split; [vm_compute; discriminate|]. split; [apply Qcle_refl|]. split; [qceq|split; qceq]. }
  apply H in Q. clear H. destruct Q as (u & Ju & Qu). unfold expand_skinny_tris in Ju. rewrite S in Ju. clear S.
  assert (V : padd (Q2Qc 10, Q2Qc 3) (vector_times (psub (0, 0) (Q2Qc 10, Q2Qc 3)) (sprod (psub (0, 0) (Q2Qc 10, Q2Qc 3)) (psub (Q2Qc 5, Q2Qc 3) (Q2Qc 10, Q2Qc 3)) / sq_length (psub (Q2Qc 10, Q2Qc 3) (0, 0)))) = (Q2Qc 5, Q2Qc 2))
    by (unfold padd, vector_times; cbn [fst snd]; apply f_equal2; qceq).
  change (corner slanted_tri (bool_index false)) with ((0, 0) : qpt) in Ju. change (corner slanted_tri ((bool_index false + 1) mod 3)) with ((Q2Qc 10, Q2Qc 3) : qpt) in Ju. change (corner slanted_tri ((bool_index false + 2) mod 3)) with ((Q2Qc 5, Q2Qc 3) : qpt) in Ju.
  cbv zeta in Ju.
  rewrite V in Ju. clear V. destruct Ju as [<-|[<-|[]]]; destruct Qu as (a & b & c & Ha & Hb & Hc & Hs & Hx & Hy); cbn [fst snd] in Hs, Hx, Hy; qc_prep; lra.
Qed.
