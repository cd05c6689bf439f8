(** Directions on integer points. *)
From Coq Require Import List ZArith Lia.
From Verif Require Import PyBase CK_Model CK_Spec.
Local Open Scope Z_scope.

Definition zero := P 0 0 0.
(** [v] is a positive multiple of [d] *)
Definition al (d v : pnt) : Prop := cross d v = zero /\ 0 < dot d v.

Lemma sq_nonneg v : 0 <= sq v.
Proof. destruct v as [a b c]. unfold sq, dot. cbn. nia. Qed.
Lemma sq_zero v : sq v = 0 -> v = zero.
Proof. destruct v as [a b c]. unfold sq, dot, zero. cbn. intros H. assert (a = 0) by nia. assert (b = 0) by nia. assert (c = 0) by nia. congruence. Qed.
Lemma sq_pos v : v <> zero -> 0 < sq v.
Proof. intros N. pose proof (sq_nonneg v). destruct (Z.eq_dec (sq v) 0) as [E|E]; [apply sq_zero in E; tauto|lia]. Qed.

(** collinear vectors are multiples of each other *)
Lemma collinear u w : cross u w = zero ->
  sq u * px w = dot u w * px u /\ sq u * py w = dot u w * py u /\ sq u * pz w = dot u w * pz u.
Proof.
  destruct u as [a b c], w as [x y z]. unfold cross, zero, sq, dot. cbn. intros [= E1 E2 E3].
  assert (F1 : (a * a + b * b + c * c) * x - (a * x + b * y + c * z) * a = - b * (a * y - b * x) + c * (c * x - a * z)) by ring.
  assert (F2 : (a * a + b * b + c * c) * y - (a * x + b * y + c * z) * b = a * (a * y - b * x) - c * (b * z - c * y)) by ring.
  assert (F3 : (a * a + b * b + c * c) * z - (a * x + b * y + c * z) * c = - a * (c * x - a * z) + b * (b * z - c * y)) by ring.
  rewrite E1, E2, E3 in *. lia.
Qed.
Lemma lagrange u w : cross u w = zero -> dot u w * dot u w = sq u * sq w.
Proof.
  destruct u as [a b c], w as [x y z]. unfold cross, zero, sq, dot. cbn. intros [= E1 E2 E3].
  assert (E : (a * a + b * b + c * c) * (x * x + y * y + z * z) - (a * x + b * y + c * z) * (a * x + b * y + c * z)
    = (b * z - c * y) * (b * z - c * y) + (c * x - a * z) * (c * x - a * z) + (a * y - b * x) * (a * y - b * x)) by ring.
  rewrite E1, E2, E3 in E. lia.
Qed.
Lemma dot_comm u w : dot u w = dot w u. Proof. destruct u, w. unfold dot. cbn. ring. Qed.
Lemma cross_anti u w : cross u w = zero -> cross w u = zero.
Proof. destruct u as [a b c], w as [x y z]. unfold cross, zero. cbn. intros [= E1 E2 E3]. f_equal; lia. Qed.
Lemma al_sym u w : al u w -> al w u.
Proof. intros [A B]. split; [now apply cross_anti|now rewrite dot_comm]. Qed.
Lemma al_nz_l u w : al u w -> 0 < sq u.
Proof. intros [A B]. apply sq_pos. intros ->. destruct w. unfold dot, zero in B. cbn in B. lia. Qed.
Lemma al_nz_r u w : al u w -> 0 < sq w.
Proof. intros H. now apply al_sym, al_nz_l in H. Qed.
Lemma al_refl u : 0 < sq u -> al u u.
Proof. intros H. split; [|exact H]. destruct u as [a b c]. unfold cross, zero. cbn. f_equal; ring. Qed.
Lemma al_trans d u w : al d u -> al u w -> al d w.
Proof.
  intros H1 H2. pose proof (al_nz_r _ _ H1) as Hu. destruct H1 as [A B], H2 as [C D].
  destruct (collinear _ _ C) as (E1 & E2 & E3).
  assert (K : sq u * dot d w = dot u w * dot d u).
  { destruct d as [p q r], u as [a b c], w as [x y z]. unfold dot in *. cbn in *.
    replace (sq (P a b c) * (p * x + q * y + r * z)) with (p * (sq (P a b c) * x) + q * (sq (P a b c) * y) + r * (sq (P a b c) * z)) by ring.
    rewrite E1, E2, E3. ring. }
  split; [|nia].
  destruct d as [p q r], u as [a b c], w as [x y z]. unfold cross, zero in *. cbn in *. injection A as A1 A2 A3.
  set (s := sq (P a b c)) in *. set (t := dot (P a b c) (P x y z)) in *. clearbody s t.
  f_equal; apply (Z.mul_reg_l _ _ s); try lia; rewrite Z.mul_0_r.
  - replace (s * (q * z - r * y)) with (q * (s * z) - r * (s * y)) by ring. rewrite E2, E3.
    replace (q * (t * c) - r * (t * b)) with (t * (q * c - r * b)) by ring. rewrite A1. ring.
  - replace (s * (r * x - p * z)) with (r * (s * x) - p * (s * z)) by ring. rewrite E1, E3.
    replace (r * (t * a) - p * (t * c)) with (t * (r * a - p * c)) by ring. rewrite A2. ring.
  - replace (s * (p * y - q * x)) with (p * (s * y) - q * (s * x)) by ring. rewrite E1, E2.
    replace (p * (t * b) - q * (t * a)) with (t * (p * b - q * a)) by ring. rewrite A3. ring.
Qed.

Lemma al_dir c d a b : al (psub d c) (psub b a) <-> same_direction c d a b.
Proof.
  split.
  - intros H. pose proof (al_nz_l _ _ H) as N1. pose proof (al_nz_r _ _ H) as N2. destruct H as [A B]. split.
    + intros ->. destruct b as [x y z]. unfold sq, dot, psub in N2. cbn in N2. rewrite !Z.sub_diag in N2. lia.
    + destruct (collinear _ _ A) as (E1 & E2 & E3). exists (sq (psub d c)), (dot (psub d c) (psub b a)). auto.
  - intros (N & m & n & Hm & Hn & E1 & E2 & E3).
    assert (N' : psub b a <> zero).
    { intros C. apply N. destruct a, b. unfold psub, zero in C. cbn in C. injection C as C1 C2 C3. f_equal; lia. }
    apply sq_pos in N'. destruct a as [a1 a2 a3], b as [b1 b2 b3], c as [c1 c2 c3], d as [d1 d2 d3].
    unfold psub, sq, al, cross, dot, zero in *. cbn in *.
    set (u1 := d1 - c1) in *. set (u2 := d2 - c2) in *. set (u3 := d3 - c3) in *.
    set (w1 := b1 - a1) in *. set (w2 := b2 - a2) in *. set (w3 := b3 - a3) in *. clearbody u1 u2 u3 w1 w2 w3.
    split.
    + f_equal; apply (Z.mul_reg_l _ _ m); try lia; rewrite Z.mul_0_r.
      * replace (m * (u2 * w3 - u3 * w2)) with (u2 * (m * w3) - u3 * (m * w2)) by ring. rewrite E2, E3. ring.
      * replace (m * (u3 * w1 - u1 * w3)) with (u3 * (m * w1) - u1 * (m * w3)) by ring. rewrite E1, E3. ring.
      * replace (m * (u1 * w2 - u2 * w1)) with (u1 * (m * w2) - u2 * (m * w1)) by ring. rewrite E1, E2. ring.
    + assert (E : n * (u1 * w1 + u2 * w2 + u3 * w3) = m * (w1 * w1 + w2 * w2 + w3 * w3)).
      { replace (n * (u1 * w1 + u2 * w2 + u3 * w3)) with ((n * u1) * w1 + (n * u2) * w2 + (n * u3) * w3) by ring.
        rewrite <- E1, <- E2, <- E3. ring. }
      nia.
Qed.

(** vectors between three points *)
Lemma psub_split p x q : psub q p = P (px (psub x p) + px (psub q x)) (py (psub x p) + py (psub q x)) (pz (psub x p) + pz (psub q x)).
Proof. unfold psub. cbn. f_equal; ring. Qed.
Lemma al_half u w v : u = P (px w + px v) (py w + py v) (pz w + pz v) -> cross u w = zero -> 0 < dot u w -> sq w < sq u ->
  al u w /\ al u v /\ sq v < sq u.
Proof.
  intros Eu A B C. pose proof (lagrange _ _ A) as L. split; [now split|].
  assert (Hw : 0 < sq w) by (apply (al_nz_r u w); now split).
  assert (D1 : dot u w < sq u) by nia. assert (D2 : sq w < dot u w) by nia.
  assert (Ev : dot u v = sq u - dot u w). { rewrite Eu. unfold sq, dot. cbn [px py pz]. ring. }
  assert (Es : sq v = sq u - 2 * dot u w + sq w). { rewrite Eu. unfold sq, dot. cbn [px py pz]. ring. }
  split; [split; [|lia]|lia].
  destruct w as [x y z], v as [a b c]. subst u. unfold cross, zero in *. cbn in *. injection A as A1 A2 A3. f_equal; lia.
Qed.

(** a cut point is strictly inside the edge *)
Definition inside (e : edge) (x : pnt) : Prop :=
  al (vec e) (psub x (fst e)) /\ al (vec e) (psub (snd e) x) /\
  sq (psub x (fst e)) < sq (vec e) /\ sq (psub (snd e) x) < sq (vec e).
Lemma cuts_iff e h : cuts e h = true <-> cross (vec e) (vec h) = zero /\ dot (vec e) (vec h) < 0 /\ sq (vec h) < sq (vec e).
Proof.
  unfold cuts, antiparallel. pose proof (sq_nonneg (cross (vec e) (vec h))) as N. rewrite andb_true_iff, Z.ltb_lt.
  destruct (Z.ltb_spec 0 (Z.abs (sq (cross (vec e) (vec h))))) as [L|L].
  - split; [intros []; discriminate|]. intros (E & _). rewrite E in L. unfold sq, dot, zero in L. cbn in L. lia.
  - rewrite Z.ltb_lt. assert (E : sq (cross (vec e) (vec h)) = 0) by lia. apply sq_zero in E. tauto.
Qed.
Lemma dot_neg u a b : dot u (psub a b) = - dot u (psub b a).
Proof. unfold dot, psub. cbn. ring. Qed.
Lemma cross_neg u a b : cross u (psub a b) = zero -> cross u (psub b a) = zero.
Proof. unfold cross, psub, zero. cbn. intros [= A B C]. f_equal; lia. Qed.
Lemma sq_neg a b : sq (psub a b) = sq (psub b a).
Proof. unfold sq, dot, psub. cbn. ring. Qed.
Lemma cut1 p q x : cuts (p, q) (x, p) = true <-> al (vec (p, q)) (psub x p) /\ sq (psub x p) < sq (vec (p, q)).
Proof.
  rewrite cuts_iff. unfold vec, al. cbn [fst snd]. rewrite (dot_neg _ p x), (sq_neg p x).
  split; [intros (A & B & C)|intros ((A & B) & C)]; (split; [|split || lia]); try lia; auto using cross_neg.
  split; [now apply cross_neg|lia].
Qed.
Lemma cut2 p q x : cuts (p, q) (q, x) = true <-> al (vec (p, q)) (psub q x) /\ sq (psub q x) < sq (vec (p, q)).
Proof.
  rewrite cuts_iff. unfold vec, al. cbn [fst snd]. rewrite (dot_neg _ x q), (sq_neg x q).
  split; [intros (A & B & C)|intros ((A & B) & C)]; (split; [|split || lia]); try lia; auto using cross_neg.
  split; [now apply cross_neg|lia].
Qed.
Lemma cut1_inside p q x : cuts (p, q) (x, p) = true -> inside (p, q) x.
Proof.
  intros H. apply cut1 in H. destruct H as [[A B] C].
  destruct (@al_half (vec (p, q)) (psub x p) (psub q x)) as (H1 & H2 & H3); auto; [apply psub_split|].
  unfold inside. cbn [fst snd]. auto.
Qed.
Lemma cut2_inside p q x : cuts (p, q) (q, x) = true -> inside (p, q) x.
Proof.
  intros H. apply cut2 in H. destruct H as [[A B] C].
  destruct (@al_half (vec (p, q)) (psub q x) (psub x p)) as (H1 & H2 & H3); auto.
  - unfold vec. cbn [fst snd]. rewrite (psub_split p x q). f_equal; ring.
  - unfold inside. cbn [fst snd]. auto.
Qed.
(** two vectors with the same direction and length are equal *)
Lemma al_same_length d v w : al d v -> al d w -> sq v = sq w -> v = w.
Proof.
  intros H1 H2 E. pose proof (al_nz_l _ _ H1) as N. destruct H1 as [A B], H2 as [C D].
  pose proof (lagrange _ _ A) as L1. pose proof (lagrange _ _ C) as L2.
  assert (Ed : dot d v = dot d w) by nia.
  destruct (collinear _ _ A) as (E1 & E2 & E3). destruct (collinear _ _ C) as (F1 & F2 & F3).
  rewrite Ed in *. destruct v as [x y z], w as [x' y' z']. cbn in *. f_equal; apply (Z.mul_reg_l _ _ (sq d)); lia.
Qed.
Lemma al_shared d v w : al d v -> al d w -> al v w.
Proof. intros H1 H2. apply (al_trans v d w); [now apply al_sym|exact H2]. Qed.
