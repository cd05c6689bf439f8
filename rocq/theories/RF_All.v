(** Building a network and eliminating all its nodes, in floating point. *)
From Coq Require Import ZArith Reals Lra Lia Psatz List.
From Flocq Require Import Core.Core IEEE754.BinarySingleNaN.
From Verif Require Import PyBase FP_Model FP_Spec FP_Proofs FC_Model FC_Spec FC_Proofs FC_Caps RN_Model RN_Spec RN_Inv RN_Ops RN_Elim RN_All RF_Model RF_Spec RF_Proofs RF_Num RF_Mesh RF_Power.
Import ListNotations.
Local Close Scope Qc_scope.
Local Open Scope R_scope.

Lemma power_nonneg n v : all_fine n -> 0 <= power n v.
Proof. intros A. rewrite power_dsum. assert (0 <= dsum (fun a b => g n a b * sq (v a - v b)) (f_nodes n)) by (apply dsum_nonneg; intros; apply Rmult_le_pos; [now apply g_nonneg|apply sq_pos]). lra. Qed.
Lemma factor_w N : factor N = w ^ (N * (N + 3)). Proof. reflexivity. Qed.
Lemma w_million k : INR k <= 2 * 10 ^ 12 -> w ^ k <= 1001 / 1000.
Proof.
  intros H. assert (P := pos_INR k). assert (UP := u_pos). assert (X : 2 * INR k * u <= 5 / 10000) by (unfold u in *; simpl in H; lra).
  assert (B := w_bound k ltac:(lra)). assert (1 <= w ^ k) by apply w_pos. nra.
Qed.
Lemma factor_small N : INR N <= 1000000 -> factor N <= 1001 / 1000.
Proof. intros H. rewrite factor_w. apply w_million. rewrite mult_INR, plus_INR. assert (P := pos_INR N). simpl (INR 3). simpl (10 ^ 12). nra. Qed.

Section Close.
Variable N0 : nat.
Hypothesis HN : INR N0 <= 1000000.
Definition W0 : R := w ^ (N0 + 3).
Definition e0 : R := sq (INR N0) * tiny_g.
Definition e2 : R := tiny_star + W0 * e0.
Lemma W0_ge1 : 1 <= W0. Proof. apply w_pos. Qed.
Lemma W0_pow_ge1 K : 1 <= W0 ^ K. Proof. apply pow_R1_Rle, W0_ge1. Qed.
Lemma W0_factor : W0 ^ N0 = factor N0. Proof. unfold W0. rewrite <- pow_mult, factor_w. f_equal. lia. Qed.
Lemma W0_pow K : (K <= N0)%nat -> W0 ^ K <= 1001 / 1000.
Proof. intros H. apply Rle_trans with (W0 ^ N0); [apply Rle_pow; [apply W0_ge1|exact H]|]. rewrite W0_factor. now apply factor_small. Qed.
Lemma e0_pos : 0 <= e0. Proof. destruct tiny_small as [_ T]. apply Rmult_le_pos; [apply sq_pos|lra]. Qed.
Lemma e0_small : e0 <= / 10 ^ 268.
Proof.
  unfold e0, tiny_g. replace 280%nat with (12 + 268)%nat by reflexivity. rewrite pow_add, Rinv_mult. assert (P := Rinv_0_lt_compat _ (ten_pos 268)).
  rewrite <- Rmult_assoc. rewrite <- (Rmult_1_l (/ 10 ^ 268)) at 2. apply Rmult_le_compat_r; [lra|]. assert (Q := pos_INR N0). unfold sq. simpl (10 ^ 12). nra.
Qed.
Lemma e2_pos : 0 <= e2. Proof. unfold e2, tiny_star. assert (A := W0_ge1). assert (B := e0_pos). assert (0 <= W0 * e0) by (apply Rmult_le_pos; lra). lra. Qed.

(** K eliminations lead from n to n' *)
Record close (K : nat) (n n' : fnet) : Prop := {
  cl_less : forall v lo hi, lo <= hi -> between n v lo hi -> power n' v <= W0 ^ K * power n v + INR K * W0 ^ K * e0 * sq (hi - lo);
  cl_more : forall v lo hi, lo <= hi -> between n' v lo hi -> exists x, agrees n' v x /\ between n x lo hi /\ power n x <= W0 ^ K * power n' v + INR K * W0 ^ K * e2 * sq (hi - lo);
  cl_total : all_cond n' <= W0 ^ K * all_cond n + INR K * W0 ^ K * e0;
  cl_nodes : incl (f_nodes n') (f_nodes n) }.
Lemma close_refl n : close 0 n n.
Proof.
  constructor.
  - intros; simpl; lra.
  - intros v lo hi L B. exists v. split; [intros a _; reflexivity|]. split; [exact B|simpl; lra].
  - simpl; lra.
  - apply incl_refl.
Qed.
Lemma chain_le K L a b c e D : 0 <= e -> 0 <= D -> b <= W0 ^ K * a + INR K * W0 ^ K * e * D -> c <= W0 ^ L * b + INR L * W0 ^ L * e * D ->
  c <= W0 ^ (K + L) * a + INR (K + L) * W0 ^ (K + L) * e * D.
Proof.
  intros E PD H1 H2. assert (X := W0_pow_ge1 K). assert (Y := W0_pow_ge1 L). rewrite plus_INR, pow_add.
  assert (H3 : W0 ^ L * b <= W0 ^ L * (W0 ^ K * a + INR K * W0 ^ K * e * D)) by (apply Rmult_le_compat_l; lra).
  assert (PL := pos_INR L). assert (Q : 0 <= INR L * W0 ^ L * e * D) by (repeat apply Rmult_le_pos; lra).
  assert (H4 : 1 * (INR L * W0 ^ L * e * D) <= W0 ^ K * (INR L * W0 ^ L * e * D)) by (apply Rmult_le_compat_r; lra). lra.
Qed.
Lemma close_trans K L n n1 n2 : close K n n1 -> close L n1 n2 -> close (K + L) n n2.
Proof.
  intros [A1 B1 C1 D1] [A2 B2 C2 D2]. assert (E0 := e0_pos). assert (E2 := e2_pos). constructor.
  - intros v lo hi LH B. apply (chain_le K L _ (power n1 v)); [exact E0|apply sq_pos|now apply A1|apply A2; [exact LH|intros a X; apply B, D1, X]].
  - intros v lo hi LH B. destruct (B2 v lo hi LH B) as (x1 & G1 & T1 & P1). destruct (B1 x1 lo hi LH T1) as (x & G & T & P). exists x. split; [|split; [exact T|]].
    + intros a X. rewrite (G1 a X). apply G, D2, X.
    + rewrite (Nat.add_comm K L). apply (chain_le L K _ (power n1 x1)); [exact E2|apply sq_pos|exact P1|exact P].
  - assert (X := chain_le K L (all_cond n) (all_cond n1) (all_cond n2) e0 1 E0 ltac:(lra)). rewrite !Rmult_1_r in X. now apply X.
  - intros x X. now apply D1, D2.
Qed.

Record good (n : fnet) : Prop := { gd_inv : SInv n; gd_fine : all_fine n; gd_len : (List.length (f_nodes n) <= N0)%nat }.
Lemma keys_nodes n i : SInv n -> In i (dkeys (node_to_s (tables n))) -> In i (f_nodes n). Proof. intros I. exact (In_keys_loc _ (si_inv _ I)). Qed.
Lemma step_close n i : good n -> all_cond n <= 10 ^ 74 -> In i (dkeys (node_to_s (tables n))) ->
  exists n', f_eliminate_node n i = Some n' /\ good n' /\ node_gone (tables n) i (tables n') /\ close 1 n n'.
Proof.
  intros [I A L] B J. assert (P := all_cond_nonneg n A). assert (JN := keys_nodes n i I J).
  assert (NP : (1 <= N0)%nat) by (destruct (f_nodes n); [destruct JN|cbn in L; lia]).
  assert (WN : w ^ (List.length (f_nodes n) + 3) <= W0) by (apply w_le; lia).
  assert (W1 : W0 <= 1001 / 1000) by (assert (X := W0_pow 1 NP); rewrite pow_1 in X; exact X).
  destruct (f_eliminate_ok n i I A) as (n' & E & I' & A' & G & D).
  { intros x y. eapply Rle_trans; [now apply g_all|]. replace (10 ^ 75) with (10 * 10 ^ 74) by (simpl; ring). assert (0 < 10 ^ 74) by apply ten_pos. lra. }
  { exact J. } { eapply Rle_trans; [now apply star_all|]. eapply Rle_trans; [exact B|]. apply ten_le. lia. } { lra. }
  assert (Nd : f_nodes n' = rest n i) by exact (ng_list G).
  exists n'. split; [exact E|]. split; [constructor; [exact I'|exact A'|rewrite Nd; assert (X := rest_length n i); lia]|]. split; [exact G|].
  assert (EP := e_pos n). assert (EN : spread n <= e0) by (apply Rmult_le_compat_r; [destruct tiny_small; lra|now apply sq_INR]). assert (WP : 1 <= w ^ (List.length (f_nodes n) + 3)) by apply w_pos.
  constructor.
  - intros v lo hi LH Bt. assert (X := step_less n n' i I A JN Nd v lo hi Bt D). rewrite pow_1. simpl (INR 1). assert (Q := power_nonneg n v A). assert (S := sq_pos (hi - lo)).
    assert (w ^ (List.length (f_nodes n) + 3) * power n v <= W0 * power n v) by (now apply Rmult_le_compat_r).
    assert (spread n * sq (hi - lo) <= e0 * sq (hi - lo)) by (now apply Rmult_le_compat_r). assert (E0 := e0_pos).
    assert (1 * (e0 * sq (hi - lo)) <= W0 * (e0 * sq (hi - lo))) by (apply Rmult_le_compat_r; [now apply Rmult_le_pos|lra]). lra.
  - intros v lo hi LH Bt. destruct (step_more n n' i I A A' JN Nd v lo hi LH Bt D) as (t & T & X). exists (vput v i t). split; [|split].
    + intros a Y. rewrite Nd in Y. apply in_remove in Y. unfold vput. destruct (Nat.eq_dec a i); tauto.
    + intros a Y. unfold vput. destruct (Nat.eq_dec a i) as [_|Na]; [exact T|]. apply Bt. rewrite Nd. now apply in_in_remove.
    + rewrite pow_1. simpl (INR 1). assert (Q := power_nonneg n' v A'). assert (S := sq_pos (hi - lo)).
      assert (w ^ (List.length (f_nodes n) + 3) * power n' v <= W0 * power n' v) by (now apply Rmult_le_compat_r).
      assert (w ^ (List.length (f_nodes n) + 3) * spread n <= W0 * e0) by (apply Rmult_le_compat; lra).
      assert ((tiny_star + w ^ (List.length (f_nodes n) + 3) * spread n) * sq (hi - lo) <= e2 * sq (hi - lo)) by (apply Rmult_le_compat_r; [exact S|unfold e2; lra]).
      assert (E2 := e2_pos). assert (1 * (e2 * sq (hi - lo)) <= W0 * (e2 * sq (hi - lo))) by (apply Rmult_le_compat_r; [now apply Rmult_le_pos|lra]). lra.
  - assert (X := step_total n n' i I I' A JN Nd D). rewrite pow_1. simpl (INR 1). assert (w ^ (List.length (f_nodes n) + 3) * all_cond n <= W0 * all_cond n) by (now apply Rmult_le_compat_r).
    assert (E0 := e0_pos). assert (1 * e0 <= W0 * e0) by (apply Rmult_le_compat_r; lra). lra.
  - rewrite Nd. intros x X. now apply in_remove in X.
Qed.

(** what the conductances may add up to after j eliminations *)
Definition budget (C : R) (j : nat) (n : fnet) : Prop := all_cond n <= W0 ^ j * C + INR j * W0 ^ j * e0.
Lemma budget_ok C j n : 0 <= C <= 10 ^ 73 -> (j <= N0)%nat -> budget C j n -> all_cond n <= 10 ^ 74.
Proof.
  intros [P B] J H. assert (X := W0_pow j J). assert (Y := W0_pow_ge1 j). assert (E := e0_pos). assert (E' := e0_small). assert (JI := le_INR _ _ J). assert (JP := pos_INR j).
  assert (W0 ^ j * C <= 1001 / 1000 * 10 ^ 73) by (apply Rmult_le_compat; lra).
  assert (/ 10 ^ 268 <= / 10 ^ 7) by (apply ten_inv_le; lia). assert (Z : / 10 ^ 7 = / 10000000) by (f_equal; simpl; ring).
  assert (INR j * W0 ^ j <= 1000000 * (1001 / 1000)) by (apply Rmult_le_compat; lra).
  assert (INR j * W0 ^ j * e0 <= 1000000 * (1001 / 1000) * / 10000000) by (apply Rmult_le_compat; try lra; apply Rmult_le_pos; lra).
  assert (1 <= 10 ^ 73) by apply ten_ge1. replace (10 ^ 74) with (10 * 10 ^ 73) by (simpl; ring). unfold budget in H. lra.
Qed.
Lemma budget_close C j K n n' : budget C j n -> close K n n' -> budget C (j + K) n'.
Proof.
  intros H [_ _ T _]. unfold budget in *. assert (X := chain_le j K C (all_cond n) (all_cond n') e0 1 e0_pos ltac:(lra)). rewrite !Rmult_1_r in X. now apply X.
Qed.
Lemma f_list_ok C l : 0 <= C <= 10 ^ 73 -> forall n j, good n -> budget C j n -> NoDup l -> incl l (dkeys (node_to_s (tables n))) -> (j + List.length l <= N0)%nat ->
  exists n1, f_eliminate_list n l = Some n1 /\ good n1 /\ close (List.length l) n n1 /\
    (forall x, In x (dkeys (node_to_s (tables n1))) <-> In x (dkeys (node_to_s (tables n))) /\ ~ In x l) /\ precious (tables n1) = precious (tables n) /\
    (forall x, In x (f_nodes n) -> ~ In x l -> In x (f_nodes n1)) /\ (List.length (node_to_s (tables n1)) + List.length l = List.length (node_to_s (tables n)))%nat.
Proof.
  intros HC. induction l as [|i l IH]; intros n j Gd B Nd Inc LN.
  - exists n. split; [reflexivity|]. split; [exact Gd|]. split; [apply close_refl|]. split; [intros x; cbn; tauto|]. split; [reflexivity|]. split; [auto|]. cbn; lia.
  - inversion Nd; subst. cbn [List.length] in LN. assert (J : In i (dkeys (node_to_s (tables n)))) by (apply Inc; now left).
    destruct (step_close n i Gd) as (n1 & E & Gd1 & G & Cl); [apply (budget_ok C j); [exact HC|lia|exact B]|exact J|].
    destruct (IH n1 (j + 1)%nat) as (n2 & E2 & Gd2 & Cl2 & K & P & V & Len); try assumption.
    { now apply (budget_close C j 1 n). }
    { intros x X. apply (ng_keys G). split; [intros ->; contradiction|]. apply Inc. now right. }
    { lia. }
    exists n2. split; [cbn; now rewrite E|]. split; [exact Gd2|]. split; [exact (close_trans 1 _ _ _ _ Cl Cl2)|]. split; [|split; [|split]].
    + intros x. rewrite K, (ng_keys G). cbn. split; [intros [[X Y] Z]; split; [exact Y|intros [-> | Q]; tauto]|intros [X Y]; split; [split; [intros ->; tauto|exact X]|tauto]].
    + rewrite P. exact (ng_prec G).
    + intros x X Y. apply V; [|cbn in Y; tauto]. change (f_nodes n1) with (node_list (tables n1)). rewrite (ng_list G). apply in_in_remove; [cbn in Y; intros ->; tauto|exact X].
    + rewrite (node_gone_length (si_inv _ (gd_inv _ Gd)) G J), <- Len. cbn. lia.
Qed.
Lemma f_loop_ok C fuel : 0 <= C <= 10 ^ 73 -> forall n nmax j, good n -> budget C j n -> (j + List.length (node_to_s (tables n)) <= N0)%nat ->
  (2 * List.length (node_to_s (tables n)) + 2 <= fuel \/ (2 * List.length (node_to_s (tables n)) + 1 <= fuel /\ fst (scan (tables n) nmax) <> []))%nat ->
  exists n1 K, f_elim_loop fuel n nmax = Done n1 /\ good n1 /\ (j + K <= N0)%nat /\ close K n n1 /\ precious (tables n1) = precious (tables n) /\
    (forall x, In x (f_nodes n) -> In x (precious (tables n)) -> In x (f_nodes n1)) /\ (forall x, In x (f_nodes n) -> ~ In x (dkeys (node_to_s (tables n))) -> In x (f_nodes n1)) /\
    (forall x, In x (dkeys (node_to_s (tables n1))) -> In x (precious (tables n))).
Proof.
  intros HC. induction fuel as [|fuel IH]; intros n nmax j Gd B LN F; [lia|].
  cbn [f_elim_loop]. destruct (scan (tables n) nmax) as [te nx] eqn:Sc.
  destruct (scan_ok _ _ Sc) as [_ Nx]. assert (I := si_inv _ (gd_inv _ Gd)).
  assert (Te : forall i, In i te <-> In i (dkeys (node_to_s (tables n))) /\ is_precious (tables n) i = false /\ (degree (tables n) i <= nmax)%nat).
  { intros i. assert (T := scan_te (tables n) nmax i). rewrite Sc in T. exact T. }
  assert (Nd : NoDup te) by (assert (T := scan_nodup nmax I); rewrite Sc in T; exact T).
  assert (NP : forall i, is_precious (tables n) i = false -> ~ In i (precious (tables n))) by (intros i H; unfold is_precious in H; destruct (in_dec Nat.eq_dec i (precious (tables n))); [discriminate|assumption]).
  destruct te as [|t0 te'].
  - destruct nx as [m|].
    + destruct Nx as (i & Ji & Pi & Di). apply (IH n m j Gd B LN). right. split; [destruct F as [F|[_ F]]; [lia|cbn in F; congruence]|].
      assert (Q : In i (fst (scan (tables n) m))) by (apply scan_te; rewrite Di; auto). intros Z. rewrite Z in Q. destruct Q.
    + exists n, 0%nat. split; [reflexivity|]. split; [exact Gd|]. split; [lia|]. split; [apply close_refl|]. split; [reflexivity|]. split; [auto|]. split; [auto|].
      intros i J. destruct (is_precious (tables n) i) eqn:P; [unfold is_precious in P; destruct (in_dec Nat.eq_dec i (precious (tables n))); [assumption|discriminate]|].
      exfalso. apply (proj2 (Te i)). auto.
  - set (te := t0 :: te') in *.
    assert (LT : (List.length te <= List.length (node_to_s (tables n)))%nat).
    { replace (List.length (node_to_s (tables n))) with (List.length (dkeys (node_to_s (tables n)))) by (unfold dkeys; apply map_length). apply NoDup_incl_length; [exact Nd|]. intros x X. apply Te in X. tauto. }
    destruct (f_list_ok C te HC n j Gd B Nd) as (n1 & E & Gd1 & Cl & K & P & V & Len).
    { intros x X. apply Te in X. tauto. } { lia. }
    rewrite E. destruct (IH n1 nmax (j + List.length te)%nat) as (n2 & K2 & Q1 & Gd2 & LK & Cl2 & P2 & V2 & V3 & U2); [exact Gd1|exact (budget_close C _ _ _ _ B Cl)|lia|left; unfold te in Len; cbn in Len; destruct F as [F|[F _]]; lia|].
    exists n2, (List.length te + K2)%nat. split; [exact Q1|]. split; [exact Gd2|]. split; [lia|]. split; [exact (close_trans _ _ _ _ _ Cl Cl2)|]. split; [congruence|]. split; [|split].
    + intros x X Y. apply V2; [|now rewrite P]. apply V; [exact X|]. intros Z. apply Te in Z. destruct Z as (_ & Z & _). exact (NP x Z Y).
    + intros x X Y. apply V3; [apply V; [exact X|]; intros Z; apply Te in Z; tauto|]. intros Z. apply K in Z. tauto.
    + intros x X. rewrite <- P. now apply U2.
Qed.
End Close.

(** ** building *)
Definition wsum (q : nid -> nid -> R) (n : fnet) : R := / 2 * dsum (fun a b => g n a b * q a b) (f_nodes n).
Definition called (q : nid -> nid -> R) (l : list call) : R := rsum (fun c => match c with CCond a b x => val x * q a b | _ => 0 end) l.
Lemma dsum_larger f l m : NoDup l -> NoDup m -> incl m l -> (forall a b, ~ (In a m /\ In b m) -> f a b = 0) -> dsum f l = dsum f m.
Proof.
  intros Nl Nm Im Z. unfold dsum. rewrite (rsum_support (fun a => rsum (f a) l) l m Nl Nm Im).
  - apply rsum_ext. intros a X. apply rsum_support; auto. intros x _ Y. apply Z. tauto.
  - intros x _ Y. rewrite (rsum_ext (f x) (fun _ => 0)) by (intros b _; apply Z; tauto). rewrite rsum_const. ring.
Qed.
Lemma pair_sum (q : nid -> nid -> R) l a b (h : R) : NoDup l -> In a l -> In b l -> a <> b -> (forall x y, q x y = q y x) ->
  dsum (fun x y => if same_pair x y a b then h * q x y else 0) l = 2 * (h * q a b).
Proof.
  intros Nl A B N Sy. unfold dsum.
  assert (T : forall x y z w, same_pair x y z w = true <-> (x = z /\ y = w) \/ (x = w /\ y = z)) by (intros; apply same_pair_spec).
  assert (R1 : forall x c d, (x = c /\ In d l \/ False) -> c <> d -> (c = a /\ d = b \/ c = b /\ d = a) -> rsum (fun y => if same_pair x y a b then h * q x y else 0) l = h * q a b).
  { intros x c d [[-> D]|[]] Ncd CD. rewrite (rsum_support _ l [d]); [|exact Nl|constructor; [tauto|constructor]|intros y [<- | []]; exact D|].
    - cbn. replace (same_pair c d a b) with true by (symmetry; apply T; tauto). destruct CD as [[-> ->]|[-> ->]]; [ring|rewrite (Sy b a); ring].
    - intros y _ Y. destruct (same_pair c y a b) eqn:SP; [|reflexivity]. exfalso. apply T in SP. apply Y. left. destruct CD as [[-> ->]|[-> ->]], SP as [[? ?]|[? ?]]; congruence. }
  rewrite (rsum_support _ l [a; b]).
  - cbn [rsum fold_right]. rewrite (R1 a a b), (R1 b b a); auto. ring.
  - exact Nl.
  - constructor; [intros [X|[]]; congruence|constructor; [tauto|constructor]].
  - intros x [<- | [<- | []]]; assumption.
  - intros x _ X. rewrite (rsum_ext _ (fun _ => 0)); [rewrite rsum_const; ring|]. intros y _. destruct (same_pair x y a b) eqn:SP; [|reflexivity]. exfalso. apply T in SP. apply X. cbn. destruct SP as [[-> _]|[-> _]]; auto.
Qed.
Lemma add_wsum q n a b x : SInv n -> all_fine n -> a <> b -> In a (f_nodes n) -> In b (f_nodes n) -> fine x -> all_cond n <= 10 ^ 100 -> val x <= 10 ^ 100 ->
  (forall y z, q y z = q z y) -> (forall y z, 0 <= q y z) ->
  all_fine (f_add_cond n a b x) /\ rel 1 (wsum q (f_add_cond n a b x)) (wsum q n + val x * q a b).
Proof.
  intros I A N Ja Jb X B BX Sy Q. set (n' := f_add_cond n a b x).
  assert (GB : g n a b + val x <= 10 ^ 200). { assert (G := g_all n a b I A). assert (T := ten_le 101 200 ltac:(lia)). replace (10 ^ 101) with (10 * 10 ^ 100) in T by (simpl; ring). assert (0 < 10 ^ 100) by apply ten_pos. lra. }
  assert (JR : fine (joined n a b x) /\ rel 1 (val (joined n a b x)) (g n a b + val x)).
  { unfold joined. destruct (dget (s (tables n)) (a, b)) eqn:E.
    - apply (add_rel (f_cond n a b) x 0 (g n a b)); try assumption; [apply A|apply A|apply rel_refl, A].
    - split; [exact X|]. replace (g n a b) with 0 by (unfold g, f_cond; rewrite E; symmetry; apply val_0). rewrite Rplus_0_l. apply (rel_le 0); [apply X|lia|apply rel_refl, X]. }
  assert (C : forall p r, f_cond n' p r = if same_pair p r a b then joined n a b x else f_cond n p r) by (intros; now apply f_cond_add).
  split; [intros p r; rewrite C; destruct (same_pair p r a b); [apply JR|apply A]|].
  assert (R : forall p r, rel 1 (g n' p r * q p r) (g n p r * q p r + (if same_pair p r a b then val x * q p r else 0))).
  { intros p r. unfold g at 1. rewrite C. destruct (same_pair p r a b) eqn:SP.
    - replace (g n p r) with (g n a b) by (apply same_pair_spec in SP; destruct SP as [[-> ->]|[-> ->]]; [reflexivity|now apply g_sym]).
      replace (g n a b * q p r + val x * q p r) with ((g n a b + val x) * q p r) by ring.
      apply (rel_mul 1 0); [assert (Z := g_nonneg n a b A); destruct X; lra|apply Q|apply JR|apply rel_refl, Q].
    - rewrite Rplus_0_r. fold (g n p r). apply (rel_le 0); [|lia|apply rel_refl]; apply Rmult_le_pos; [now apply g_nonneg|apply Q|now apply g_nonneg|apply Q]. }
  unfold wsum, n'. rewrite f_nodes_add. fold n'. 
  assert (E : / 2 * dsum (fun p r => g n p r * q p r + (if same_pair p r a b then val x * q p r else 0)) (f_nodes n) = / 2 * dsum (fun p r => g n p r * q p r) (f_nodes n) + val x * q a b).
  { rewrite dsum_plus, (pair_sum q (f_nodes n) a b (val x) (nodes_nodup n I) Ja Jb N Sy). field. }
  rewrite <- E. assert (W1 := w_ge1). unfold rel in *. rewrite pow_1 in *. split.
  - unfold Rdiv. rewrite Rmult_assoc. apply Rmult_le_compat_l; [lra|]. rewrite Rmult_comm, <- dsum_scal. apply dsum_le. intros p r _ _. specialize (R p r). unfold Rdiv in R. lra.
  - rewrite Rmult_assoc. apply Rmult_le_compat_l; [lra|]. rewrite Rmult_comm, <- dsum_scal. apply dsum_le. intros p r _ _. specialize (R p r). lra.
Qed.
Definition one (a b : nid) : R := 1.
Lemma all_cond_wsum n : all_cond n = wsum one n.
Proof. rewrite all_cond_dsum. unfold wsum. f_equal. apply dsum_ext. intros. unfold one. ring. Qed.
Lemma added_called l : added l = called one l.
Proof. unfold added, called. apply rsum_ext. intros [p|i|a b x] _; unfold one; ring. Qed.
Lemma node_sums q n p : SInv n -> SInv (fst (f_node_id n p)) /\ (forall a b, f_cond (fst (f_node_id n p)) a b = f_cond n a b) /\ wsum q (fst (f_node_id n p)) = wsum q n.
Proof.
  intros I. assert (Iv := Inv_node_id p (si_inv _ I)). unfold f_node_id. destruct (node_id (tables n) p) as [t k] eqn:E. cbn [fst] in *.
  assert (ST : s t = s (tables n) /\ heap t = heap (tables n) /\ incl (f_nodes n) (dkeys (locations t))).
  { unfold node_id in E. destruct (dget (nodes (tables n)) p); injection E as <- <-; cbn; split; try reflexivity; split; try reflexivity; [apply incl_refl|].
    intros a X. destruct (dkeys_dget _ _ X) as [pa PA]. destruct (Nat.eq_dec a (next_id (tables n))) as [-> | Na]; [eapply dget_Some_key; apply dget_dset_same|].
    eapply dget_Some_key. rewrite dget_dset_other by congruence. exact PA. }
  destruct ST as (S1 & S2 & S3).
  assert (I' : SInv (FNet t (objects n))) by (constructor; cbn; [exact Iv|rewrite S2; apply I]).
  assert (C : forall a b, f_cond (FNet t (objects n)) a b = f_cond n a b) by (intros; unfold f_cond; cbn [tables objects]; now rewrite S1).
  split; [exact I'|]. split; [exact C|]. unfold wsum. f_equal.
  rewrite (dsum_ext _ (fun a b => g n a b * q a b)) by (intros; unfold g; now rewrite C).
  apply dsum_larger; [exact (nodes_nodup _ I')|exact (nodes_nodup _ I)|exact S3|]. intros a b X. rewrite g_outside by assumption. ring.
Qed.
Lemma call_cond_added a b x l : added (CCond a b x :: l) = val x + added l. Proof. reflexivity. Qed.
Lemma added_nonneg l : forall n, calls_ok n l -> 0 <= added l.
Proof.
  induction l as [|c l IH]; intros n H; [cbn; lra|]. destruct H as [H1 H2]. specialize (IH _ H2). change (added (c :: l)) with (match c with CCond _ _ x => val x | _ => 0 end + added l).
  destruct c; try lra. destruct H1 as (_ & _ & _ & _ & H1). lra.
Qed.
Lemma build_ok q l : (forall y z, q y z = q z y) -> (forall y z, 0 <= q y z) -> forall n k T Tq, SInv n -> all_fine n -> calls_ok n l -> 0 <= T -> 0 <= Tq -> rel k (all_cond n) T -> rel k (wsum q n) Tq ->
  T + added l <= 10 ^ 70 -> w ^ (k + List.length l) <= 2 ->
  let n' := fold_left f_call l n in SInv n' /\ all_fine n' /\ rel (k + List.length l) (all_cond n') (T + added l) /\ rel (k + List.length l) (wsum q n') (Tq + called q l).
Proof.
  intros Sy Q. induction l as [|c l IH]; intros n k T Tq I A O PT PQ RT RQ B W n'.
  - unfold n'. cbn [fold_left List.length added called rsum fold_right]. rewrite Nat.add_0_r, !Rplus_0_r. auto.
  - destruct O as [O1 O2]. cbn [fold_left List.length] in *. assert (AL := added_nonneg _ _ O2).
    change (added (c :: l)) with (match c with CCond _ _ x => val x | _ => 0 end + added l) in *.
    change (called q (c :: l)) with (match c with CCond a b x => val x * q a b | _ => 0 end + called q l).
    assert (Same : SInv (f_call n c) -> (forall a b, f_cond (f_call n c) a b = f_cond n a b) -> wsum q (f_call n c) = wsum q n -> wsum one (f_call n c) = wsum one n -> (match c with CCond _ _ x => val x | _ => 0 end = 0) -> (match c with CCond a b x => val x * q a b | _ => 0 end = 0) ->
      SInv n' /\ all_fine n' /\ rel (k + S (List.length l)) (all_cond n') (T + (match c with CCond _ _ x => val x | _ => 0 end + added l)) /\ rel (k + S (List.length l)) (wsum q n') (Tq + (match c with CCond a b x => val x * q a b | _ => 0 end + called q l))).
    { intros I' C E1 E2 Z1 Z2. rewrite Z1, Z2, !Rplus_0_l in *. replace (k + S (List.length l))%nat with (S k + List.length l)%nat in * by lia.
      apply (IH (f_call n c) (S k)); try assumption.
      - intros a b. rewrite C. apply A.
      - apply (rel_le k); [exact PT|lia|]. rewrite all_cond_wsum, E2, <- all_cond_wsum. exact RT.
      - apply (rel_le k); [exact PQ|lia|]. rewrite E1. exact RQ. }
    destruct c as [p|i|a b x].
    + destruct (node_sums q n p I) as (I' & C & E1). destruct (node_sums one n p I) as (_ & _ & E2). apply Same; auto.
    + apply Same; auto. constructor; cbn; [apply Inv_mark, I|apply I].
    + clear Same. destruct O1 as (N & Ja & Jb & FX & PX). assert (WK : w ^ k <= 2) by (assert (w ^ k <= w ^ (k + S (List.length l))) by (apply w_le; lia); lra).
      assert (T100 : 10 ^ 70 * 10 <= 10 ^ 100) by (assert (X := ten_le 71 100 ltac:(lia)); replace (10 ^ 71) with (10 ^ 70 * 10) in X by (simpl; ring); exact X). assert (T70 := ten_pos 70).
      assert (AB : all_cond n <= 10 ^ 100). { destruct RT as [_ RT]. assert (1 <= w ^ k) by apply w_pos. assert (T * w ^ k <= 10 ^ 70 * 2) by (apply Rmult_le_compat; lra). lra. }
      assert (XB : val x <= 10 ^ 100) by lra.
      destruct (add_wsum q n a b x I A N Ja Jb (conj FX PX) AB XB Sy Q) as [A' R1].
      destruct (add_wsum one n a b x I A N Ja Jb (conj FX PX) AB XB) as [_ R2]; [reflexivity|intros; unfold one; lra|].
      replace (k + S (List.length l))%nat with (S k + List.length l)%nat in * by lia.
      rewrite <- !Rplus_assoc in *. assert (XQ : 0 <= val x * q a b) by (apply Rmult_le_pos; [exact PX|apply Q]).
      apply (IH (f_call n (CCond a b x)) (S k)); try assumption.
      * now apply SInv_add.
      * lra.
      * lra.
      * rewrite all_cond_wsum. change (S k) with (1 + k)%nat. apply (rel_trans 1 k _ (wsum one n + val x * one a b)); [lra|exact R2|]. unfold one at 2. rewrite Rmult_1_r.
        apply rel_add; [rewrite <- all_cond_wsum; exact RT|]. apply (rel_le 0); [exact PX|lia|now apply rel_refl].
      * change (S k) with (1 + k)%nat. apply (rel_trans 1 k _ (wsum q n + val x * q a b)); [lra|exact R1|].
        apply rel_add; [exact RQ|]. apply (rel_le 0); [exact XQ|lia|now apply rel_refl].
Qed.
Lemma SInv_empty : SInv fempty. Proof. constructor; [exact Inv_empty|reflexivity]. Qed.
Lemma fine_empty : all_fine fempty. Proof. intros a b. exact zero_fine. Qed.
