(** Lemmas on picking panels and on points in facets, for C105. *)
From Coq Require Import ZArith Reals String List Permutation Lra Lia.
From Flocq Require Import IEEE754.BinarySingleNaN.
From Verif Require Import PyBase PyLib FP_Model FP_Spec TG_Model TG_Spec ST_Spec GF_Spec VX_Model VX_Spec.
Import ListNotations.
Local Close Scope Qc_scope.
Local Open Scope list_scope.
Local Open Scope R_scope.

(** ** Picking *)
Lemma picks_app {A} (P : A -> Prop) l m l' m' : picks P l m -> picks P l' m' -> picks P (l ++ l') (m ++ m').
Proof. induction 1; cbn; intros; [assumption|constructor; auto|constructor; auto]. Qed.
Lemma picks_none {A} (P : A -> Prop) l : (forall x, In x l -> ~ P x) -> picks P l [].
Proof. induction l as [|x l IH]; intros N; constructor; [apply N; now left|apply IH; intros; apply N; now right]. Qed.
Lemma picks_In {A} (P : A -> Prop) l m x : picks P l m -> In x m -> In x l.
Proof. induction 1; cbn; intuition. Qed.
Lemma picks_holds {A} (P : A -> Prop) l m x : picks P l m -> In x m -> P x.
Proof. induction 1; cbn; intuition congruence. Qed.
Lemma picks_perm {A} (P : A -> Prop) l l' : Permutation l l' -> forall m, picks P l m -> exists m', picks P l' m' /\ Permutation m m'.
Proof.
  induction 1; intros k K.
  - inversion K; subst. exists []. split; constructor.
  - inversion K; subst.
    + destruct (IHPermutation _ H4) as (m' & K' & Q). exists (x :: m'). split; constructor; assumption.
    + destruct (IHPermutation _ H4) as (m' & K' & Q). exists m'. split; [constructor 3; assumption|assumption].
  - inversion K as [|? ? m1 H1 H2|? ? m1 H1 H2]; subst; inversion H2 as [|? ? m2 H3 H4|? ? m2 H3 H4]; subst; clear K H2.
    + exists (x :: y :: m2). split; [apply PickIt; [|apply PickIt]; assumption|apply perm_swap].
    + eexists. split; [apply PickNot; [|apply PickIt; [|eassumption]]; assumption|apply Permutation_refl].
    + eexists. split; [apply PickIt; [|apply PickNot; [|eassumption]]; assumption|apply Permutation_refl].
    + eexists. split; [apply PickNot; [|apply PickNot; [|eassumption]]; assumption|apply Permutation_refl].
  - destruct (IHPermutation1 _ K) as (k1 & K1 & Q1). destruct (IHPermutation2 _ K1) as (k2 & K2 & Q2). exists k2. split; [assumption|]. eapply Permutation_trans; eassumption.
Qed.
Lemma picks_map {A B} (f : A -> B) (P : B -> Prop) l m : picks (fun x => P (f x)) l m -> picks P (map f l) (map f m).
Proof. induction 1; cbn; constructor; auto. Qed.
Lemma picks_map_inv {A B} (f : A -> B) (P : B -> Prop) l k : picks P (map f l) k -> exists m, k = map f m /\ picks (fun x => P (f x)) l m.
Proof.
  revert k. induction l as [|x l IH]; cbn; intros k K; inversion K; subst.
  - exists []. split; [reflexivity|constructor].
  - destruct (IH _ H3) as (m' & -> & M). exists (x :: m'). split; [reflexivity|constructor; assumption].
  - destruct (IH _ H3) as (m' & -> & M). exists m'. split; [reflexivity|constructor 3; assumption].
Qed.
Lemma picks_related {A B} (R : A -> B -> Prop) (P : A -> Prop) (Q : B -> Prop) l m k :
  Forall2 R l m -> (forall a b, R a b -> (P a <-> Q b)) -> picks P l k -> exists k', picks Q m k' /\ Forall2 R k k'.
Proof.
  intros F E K. revert m F. induction K; intros m0 F; inversion F; subst.
  - exists []. split; constructor.
  - destruct (IHK _ H4) as (k' & K' & G). eexists. split; [constructor 2; [apply (E x); assumption|eassumption]|constructor; assumption].
  - destruct (IHK _ H4) as (k' & K' & G). eexists. split; [constructor 3; [rewrite <- (E x); eassumption|eassumption]|assumption].
Qed.
Lemma permuted {A B} (R : A -> B -> Prop) l l' m : Permutation l l' -> Forall2 R l m -> exists m', Permutation m m' /\ Forall2 R l' m'.
Proof.
  intros Q. revert m. induction Q; intros k F.
  - inversion F. exists []. split; constructor.
  - inversion F; subst. destruct (IHQ _ H3) as (m' & Q' & F'). exists (y :: m'). split; constructor; assumption.
  - inversion F as [|? b ? ? H1 H2]; subst. inversion H2 as [|? b' ? ? H3 H4]; subst. exists (b' :: b :: l'0). split; [apply perm_swap|repeat constructor; assumption].
  - destruct (IHQ1 _ F) as (m1 & P1 & F1). destruct (IHQ2 _ F1) as (m2 & P2 & F2). exists m2. split; [eapply Permutation_trans; eassumption|assumption].
Qed.
Lemma Forall2_flat {A B C} (R : B -> C -> Prop) (f : A -> list B) (g : A -> list C) l : (forall x, In x l -> Forall2 R (f x) (g x)) -> Forall2 R (flat_map f l) (flat_map g l).
Proof. induction l as [|x l IH]; cbn; intros I; [constructor|]. apply Forall2_app; [apply I; now left|apply IH; intros; apply I; now right]. Qed.

(** ** Facets *)
Lemma three_perm {A} (p q r a b c : A) : Permutation [p; q; r] [a; b; c] ->
  [p; q; r] = [a; b; c] \/ [p; q; r] = [a; c; b] \/ [p; q; r] = [b; a; c] \/ [p; q; r] = [b; c; a] \/ [p; q; r] = [c; a; b] \/ [p; q; r] = [c; b; a].
Proof.
  intros H. assert (I : In p [a; b; c]) by (eapply Permutation_in; [exact H|now left]).
  destruct I as [<-|[<-|[<-|[]]]].
  - apply Permutation_cons_inv in H. apply Permutation_length_2_inv in H. destruct H as [E|E]; injection E as -> ->; auto.
  - assert (H' : Permutation [q; r] [a; c]) by (apply Permutation_cons_app_inv with (l1 := [a]) (l2 := [c]) (a := b); exact H).
    apply Permutation_length_2_inv in H'. destruct H' as [E|E]; injection E as -> ->; auto 7.
  - assert (H' : Permutation [q; r] [a; b]) by (apply Permutation_cons_app_inv with (l1 := [a; b]) (l2 := []) (a := c); exact H).
    apply Permutation_length_2_inv in H'. destruct H' as [E|E]; injection E as -> ->; auto 7.
Qed.
Lemma weighted_swap l m n p q r : weighted l m n (p, q, r) = weighted l n m (p, r, q).
Proof. destruct p as [[? ?] ?], q as [[? ?] ?], r as [[? ?] ?]. cbn. f_equal; [f_equal|]; lra. Qed.
Lemma weighted_turn l m n p q r : weighted l m n (p, q, r) = weighted m n l (q, r, p).
Proof. destruct p as [[? ?] ?], q as [[? ?] ?], r as [[? ?] ?]. cbn. f_equal; [f_equal|]; lra. Qed.
Lemma inside_swap x p q r : inside x (p, q, r) <-> inside x (p, r, q).
Proof. split; intros (l & m & n & H1 & H2 & H3 & H4 & ->); exists l, n, m; repeat split; try lra; apply weighted_swap. Qed.
Lemma inside_turn x p q r : inside x (p, q, r) <-> inside x (q, r, p).
Proof.
  split; intros (l & m & n & H1 & H2 & H3 & H4 & ->).
  - exists m, n, l; repeat split; try lra; apply weighted_turn.
  - exists n, l, m; repeat split; try lra. symmetry. apply weighted_turn.
Qed.
Lemma border_swap x p q r : on_border x (p, q, r) <-> on_border x (p, r, q).
Proof. split; intros (l & m & n & H1 & H2 & H3 & H4 & H5 & ->); exists l, n, m; repeat split; try lra; apply weighted_swap. Qed.
Lemma border_turn x p q r : on_border x (p, q, r) <-> on_border x (q, r, p).
Proof.
  split; intros (l & m & n & H1 & H2 & H3 & H4 & H5 & ->).
  - exists m, n, l; repeat split; try lra; apply weighted_turn.
  - exists n, l, m; repeat split; try lra. symmetry. apply weighted_turn.
Qed.
Lemma perm_facet (P : corner * corner * corner -> Prop) : (forall p q r, P (p, q, r) <-> P (p, r, q)) -> (forall p q r, P (p, q, r) <-> P (q, r, p)) ->
  forall p q r a b c, Permutation [p; q; r] [a; b; c] -> (P (p, q, r) <-> P (a, b, c)).
Proof.
  intros S T p q r a b c H. destruct (three_perm _ _ _ _ _ _ H) as [E|[E|[E|[E|[E|E]]]]]; injection E as -> -> ->.
  - tauto.
  - apply S.
  - rewrite (T b a c). apply S.
  - rewrite (T a b c). tauto.
  - rewrite (T c a b). tauto.
  - rewrite (S c b a), (T c a b). tauto.
Qed.
Lemma inside_perm x p q r a b c : Permutation [p; q; r] [a; b; c] -> (inside x (p, q, r) <-> inside x (a, b, c)).
Proof. apply (perm_facet (inside x)); intros; [apply inside_swap|apply inside_turn]. Qed.
Lemma border_perm x p q r a b c : Permutation [p; q; r] [a; b; c] -> (on_border x (p, q, r) <-> on_border x (a, b, c)).
Proof. apply (perm_facet (on_border x)); intros; [apply border_swap|apply border_turn]. Qed.

Section Placed.
Variable A : R -> R -> corner.
Hypothesis affine : forall l m n x y x' y' x'' y'', l + m + n = 1 ->
  A (l * x + m * x' + n * x'') (l * y + m * y' + n * y'') = weighted l m n (A x y, A x' y', A x'' y'').
Hypothesis injective : forall x y x' y', A x y = A x' y' -> x = x' /\ y = y'.
Variable place : grid_point -> corner.
Hypothesis placed : forall g, place g = A (IZR (fst g)) (IZR (snd g)).
Lemma flat_weighted l m n a b c : weighted l m n (flat (a, b, c)) =
  (l * IZR (fst a) + m * IZR (fst b) + n * IZR (fst c), l * IZR (snd a) + m * IZR (snd b) + n * IZR (snd c), 0).
Proof. cbn. f_equal; [f_equal|]; lra. Qed.
Lemma placed_point x y l m n a b c : l + m + n = 1 ->
  (A x y = weighted l m n (place a, place b, place c) <-> (x, y, 0) = weighted l m n (flat (a, b, c))).
Proof.
  intros E. rewrite flat_weighted, !placed, <- affine by exact E. split.
  - intros Q. apply injective in Q. destruct Q as [-> ->]. reflexivity.
  - intros Q. injection Q as -> ->. reflexivity.
Qed.
Lemma placed_inside x y v g f : facet_at place v g f -> (inside (x, y, 0) (flat g) <-> inside (A x y) f).
Proof.
  destruct g as [[a b] c], f as [[p q] r]. intros [H _]. rewrite (inside_perm _ _ _ _ _ _ _ H).
  split; intros (l & m & n & H1 & H2 & H3 & H4 & E); exists l, m, n; repeat split; auto; apply (placed_point x y l m n a b c H4); exact E.
Qed.
Lemma placed_border x y v g f : facet_at place v g f -> (on_border (x, y, 0) (flat g) <-> on_border (A x y) f).
Proof.
  destruct g as [[a b] c], f as [[p q] r]. intros [H _]. rewrite (border_perm _ _ _ _ _ _ _ H).
  split; intros (l & m & n & H1 & H2 & H3 & H4 & H5 & E); exists l, m, n; repeat split; auto; apply (placed_point x y l m n a b c H5); exact E.
Qed.
End Placed.

(** a facet in a plane at a right angle to an axis *)
Section Planes.
Variable at_ : corner -> R.
Hypothesis linear : forall l m n p q r, at_ (weighted l m n (p, q, r)) = l * at_ p + m * at_ q + n * at_ r.
Lemma in_plane place v g f k x : facet_at place v g f -> (forall q, at_ (place q) = k) -> inside x f -> at_ x = k.
Proof.
  destruct g as [[a b] c], f as [[p q] r]. intros [H _] E I. apply (inside_perm _ _ _ _ _ _ _ H) in I.
  destruct I as (l & m & n & _ & _ & _ & S & ->). rewrite linear, !E. replace k with ((l + m + n) * k) at 4 by (rewrite S; lra). lra.
Qed.
End Planes.
Definition cx (q : corner) : R := fst (fst q).
Definition cy (q : corner) : R := snd (fst q).
Definition cz (q : corner) : R := snd q.
Lemma cx_linear l m n p q r : cx (weighted l m n (p, q, r)) = l * cx p + m * cx q + n * cx r.
Proof. destruct p as [[? ?] ?], q as [[? ?] ?], r as [[? ?] ?]. reflexivity. Qed.
Lemma cy_linear l m n p q r : cy (weighted l m n (p, q, r)) = l * cy p + m * cy q + n * cy r.
Proof. destruct p as [[? ?] ?], q as [[? ?] ?], r as [[? ?] ?]. reflexivity. Qed.
Lemma cz_linear l m n p q r : cz (weighted l m n (p, q, r)) = l * cz p + m * cz q + n * cz r.
Proof. destruct p as [[? ?] ?], q as [[? ?] ?], r as [[? ?] ?]. reflexivity. Qed.
Lemma off_grid k s j u : 0 < u -> 0 < s < 1 -> (IZR k + s) * u <> IZR j * u.
Proof.
  intros U S E. apply Rmult_eq_reg_r in E; [|lra]. assert (Q : s = IZR (j - k)) by (rewrite minus_IZR; lra).
  destruct (Z_le_gt_dec (j - k) 0) as [L|L].
  - apply IZR_le in L. lra.
  - assert (1 <= j - k)%Z by lia. apply IZR_le in H. lra.
Qed.

(** ** Levels *)
Definition lift (u z : R) (x y : R) : corner := (x * u, y * u, z).
Lemma lift_affine u z l m n x y x' y' x'' y'' : l + m + n = 1 ->
  lift u z (l * x + m * x' + n * x'') (l * y + m * y' + n * y'') = weighted l m n (lift u z x y, lift u z x' y', lift u z x'' y'').
Proof. intros E. unfold lift. cbn. f_equal; [f_equal; lra|]. replace z with ((l + m + n) * z) at 1 by (rewrite E; lra). lra. Qed.
Lemma lift_injective u z x y x' y' : 0 < u -> lift u z x y = lift u z x' y' -> x = x' /\ y = y'.
Proof. intros U E. injection E as E1 E2. split; eapply Rmult_eq_reg_r; try eassumption; lra. Qed.
Lemma level_lift u z g : level u z g = lift u z (IZR (fst g)) (IZR (snd g)). Proof. reflexivity. Qed.

(** ** Walls over units *)
(** the position along the axis, and the line *)
Definition axis (e : piece * bool) : bool := match fst e with PX _ _ => true | PY _ _ => false end.
Definition line_at (e : piece * bool) : Z := match fst e with PX _ y => y | PY x _ => x end.
Definition start (b : piece) : Z := match b with PX x _ => x | PY _ y => y end.
Definition sign (d : bool) : R := if d then 1 else -1.
Definition raise (u : R) (e : piece * bool) (x y : R) : corner :=
  if axis e then (sign (snd e) * x * u, IZR (line_at e) * u, y * u) else (IZR (line_at e) * u, sign (snd e) * x * u, y * u).
Lemma raise_affine u e l m n x y x' y' x'' y'' : l + m + n = 1 ->
  raise u e (l * x + m * x' + n * x'') (l * y + m * y' + n * y'') = weighted l m n (raise u e x y, raise u e x' y', raise u e x'' y'').
Proof.
  intros E. unfold raise. set (c := IZR (line_at e) * u). assert (C : c = l * c + m * c + n * c) by (replace (l * c + m * c + n * c) with ((l + m + n) * c) by lra; rewrite E; lra).
  destruct (axis e); unfold weighted; (apply f_equal2; [apply f_equal2|]); first [exact C|ring].
Qed.
Lemma sign_ne d : sign d <> 0. Proof. destruct d; cbn; lra. Qed.
Lemma raise_injective u e x y x' y' : 0 < u -> raise u e x y = raise u e x' y' -> x = x' /\ y = y'.
Proof.
  intros U E. unfold raise in E. pose proof (sign_ne (snd e)) as N. destruct (axis e); injection E as E1 E2; (split; [|eapply Rmult_eq_reg_r; try eassumption; lra]).
  all: apply Rmult_eq_reg_r in E1; [|lra]; apply Rmult_eq_reg_l in E1; assumption.
Qed.
Lemma edge_dx e : dx (edge_of e) = (if axis e then if snd e then 1 else -1 else 0)%Z.
Proof. destruct e as [[x y|x y] [|]]; unfold dx; cbn; lia. Qed.
Lemma edge_dy e : dy (edge_of e) = (if axis e then 0 else if snd e then 1 else -1)%Z.
Proof. destruct e as [[x y|x y] [|]]; unfold dy; cbn; lia. Qed.
Lemma wall_raise u e g : wall u (edge_of e) g = raise u e (IZR (fst g)) (IZR (snd g)).
Proof.
  unfold wall, on_wall, raise. rewrite edge_dx, edge_dy. destruct e as [[x y|x y] [|]]; cbn -[IZR Z.mul]; f_equal; f_equal; f_equal.
  all: rewrite ?mult_IZR; try lra.
Qed.
