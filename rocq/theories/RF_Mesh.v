(** The star-mesh step in floating point. *)
From Coq Require Import ZArith Reals Lra Lia Psatz List.
From Flocq Require Import Core.Core IEEE754.BinarySingleNaN.
From Verif Require Import PyBase FP_Model FP_Spec FP_Proofs FC_Model FC_Spec FC_Proofs FC_Caps RN_Model RN_Spec RN_Inv RN_Ops RN_Elim RN_All RF_Model RF_Spec RF_Proofs RF_Num.
Import ListNotations.
Local Close Scope Qc_scope.
Local Open Scope R_scope.

Lemma join_ok x c k Y : fine x -> fine c -> relabs k tiny_g (val c) Y -> 0 <= Y -> val x <= 10 ^ 75 -> Y <= 10 ^ 170 -> w ^ S k <= 2 ->
  fine (fadd x c) /\ relabs (S k) (2 * tiny_g) (val (fadd x c)) (val x + Y).
Proof.
  intros [FX PX] [FC PC] [R1 R2] P BX BY W. destruct tiny_small as [_ TP]. assert (WK : 1 <= w ^ k) by apply w_pos. assert (W1 := w_ge1).
  assert (WE : w ^ S k = w * w ^ k) by reflexivity.
  assert (WK2 : w ^ k <= 2) by (assert (w ^ k <= w ^ S k) by (apply w_le; lia); lra).
  assert (T1 : tiny_g <= 1). { unfold tiny_g. rewrite <- Rinv_1. apply Rinv_le; [lra|apply ten_ge1]. }
  assert (B : val x + val c <= 10 ^ 200).
  { assert (T2 := ten_le 75 170 ltac:(lia)). assert (T3 := ten_le 171 200 ltac:(lia)). replace (10 ^ 171) with (10 * 10 ^ 170) in T3 by (simpl; ring). assert (T4 := ten_ge1 170).
    assert (Y * w ^ k <= 10 ^ 170 * 2) by (apply Rmult_le_compat; lra). lra. }
  destruct (add_fits x c FX FC) as [F V]; [rewrite Rabs_pos_eq by lra; exact B|]. split; [split; [exact F|rewrite V; apply fl_nonneg; lra]|].
  rewrite V. assert (E := fl_plus x c). rewrite (Rabs_pos_eq (val x + val c)) in E by lra. destruct (one_rel (val x + val c) _ ltac:(lra) E) as [E1 E2]. simpl in E1, E2. rewrite Rmult_1_r in E1, E2.
  assert (I1 : / w ^ k <= 1) by (rewrite <- Rinv_1; apply Rinv_le; lra). assert (I2 : 0 < / w ^ k) by (apply Rinv_0_lt_compat; lra). assert (I3 : 0 < / w) by (apply Rinv_0_lt_compat; lra).
  assert (I4 : / w <= 1) by (rewrite <- Rinv_1; apply Rinv_le; lra).
  split.
  - eapply Rle_trans; [|exact E1]. unfold Rdiv in *. rewrite WE, Rinv_mult.
    apply Rle_trans with ((val x * / w ^ k + (Y * / w ^ k - tiny_g)) * / w).
    + assert (tiny_g * / w <= tiny_g * 1) by (apply Rmult_le_compat_l; lra). lra.
    + apply Rmult_le_compat_r; [lra|]. assert (val x * / w ^ k <= val x * 1) by (apply Rmult_le_compat_l; lra). lra.
  - eapply Rle_trans; [exact E2|]. rewrite WE.
    apply Rle_trans with ((val x * w ^ k + (Y * w ^ k + tiny_g)) * w).
    + apply Rmult_le_compat_r; [lra|]. assert (val x * 1 <= val x * w ^ k) by (apply Rmult_le_compat_l; lra). lra.
    + assert (tiny_g * w <= tiny_g * 2) by (apply Rmult_le_compat_l; unfold w, u; lra). lra.
Qed.

Section Mesh.
Variables (i : nid) (sum : float) (Sx : R) (d : nat) (n0 : fnet) (star : list (ref * nid)).
Hypothesis H0 : SInv n0.
Hypothesis Hstar : dget (node_to_s (tables n0)) i = Some star.
Hypothesis Hfine : forall x y, fine (f_cond n0 x y).
Hypothesis Hbig : forall x y, g n0 x y <= 10 ^ 75.
Hypothesis Hsum : fine sum.
Hypothesis Hlow : / 100000000000 <= val sum.
Hypothesis HS : 0 < Sx.
Hypothesis Hrel : rel d (val sum) Sx.
Hypothesis Hw : w ^ (d + 3) <= 2.

Definition share (x y : nid) : R := g n0 i x * g n0 i y / Sx.
Definition upd (x y : nid) (c : float) : Prop := fine c /\ relabs (d + 3) (2 * tiny_g) (val c) (g n0 x y + share x y).
Lemma share_nonneg x y : 0 <= share x y.
Proof. apply Rmult_le_pos; [apply Rmult_le_pos; apply Hfine|]. left. now apply Rinv_0_lt_compat. Qed.
Lemma share_big x y : share x y <= 10 ^ 170.
Proof.
  assert (1 <= w ^ d) by apply w_pos. assert (w ^ d <= 2) by (assert (w ^ d <= w ^ (d + 3)) by (apply w_le; lia); lra).
  assert (B : / 200000000000 <= Sx). { destruct Hrel as [_ R]. assert (Sx * w ^ d <= Sx * 2) by (apply Rmult_le_compat_l; lra). lra. }
  assert (B' : / Sx <= 200000000000). { replace 200000000000 with (/ / 200000000000) by (rewrite Rinv_inv; reflexivity). apply Rinv_le; lra. }
  assert (0 < / Sx) by (now apply Rinv_0_lt_compat). assert (P1 := proj2 (Hfine i x)). assert (P2 := proj2 (Hfine i y)). fold (g n0 i x) in P1. fold (g n0 i y) in P2.
  apply Rle_trans with (10 ^ 75 * 10 ^ 75 * 200000000000).
  - unfold share, Rdiv. apply Rmult_le_compat; try lra; [now apply Rmult_le_pos|]. apply Rmult_le_compat; auto.
  - replace 170%nat with (75 + 75 + 20)%nat by reflexivity. rewrite !pow_add. apply Rmult_le_compat_l; [|simpl; lra]. apply Rmult_le_pos; left; apply ten_pos.
Qed.
Lemma share_sym x y : share x y = share y x. Proof. unfold share, Rdiv. ring. Qed.
Lemma upd_sym x y c : upd x y c -> upd y x c.
Proof. unfold upd. now rewrite (share_sym y x), (eq_refl : g n0 y x = val (f_cond n0 y x)), (f_cond_sym n0 y x H0). Qed.

(** the network while the star of i is replaced *)
Record fmesh (n : fnet) : Prop := {
  fm_inv : SInv n;
  fm_star : dget (node_to_s (tables n)) i = Some star;
  fm_frame : same_frame (tables n0) (tables n);
  fm_keys : forall x, In x (dkeys (node_to_s (tables n))) <-> In x (dkeys (node_to_s (tables n0)));
  fm_gi : forall x, f_cond n i x = f_cond n0 i x }.
Lemma fmesh_start : fmesh n0. Proof. constructor; auto using same_frame_refl; reflexivity. Qed.

Lemma fmesh_add n e1 e2 : fmesh n -> In e1 star -> In e2 star -> snd e1 <> snd e2 -> f_cond n (snd e1) (snd e2) = f_cond n0 (snd e1) (snd e2) ->
  let c := fdiv (fmul (fget (objects n) (fst e1)) (fget (objects n) (fst e2))) sum in let n' := f_add_cond n (snd e1) (snd e2) c in
  fmesh n' /\ upd (snd e1) (snd e2) (f_cond n' (snd e1) (snd e2)) /\ forall x y, same_pair x y (snd e1) (snd e2) = false -> f_cond n' x y = f_cond n x y.
Proof.
  intros [I E F K G] J1 J2 N Q c n'.
  destruct (star_nb _ _ (si_inv _ I) E J1) as (A1 & A2 & A3). destruct (star_nb _ _ (si_inv _ I) E J2) as (B1 & B2 & B3).
  assert (C : forall x y, f_cond n' x y = if same_pair x y (snd e1) (snd e2) then joined n (snd e1) (snd e2) c else f_cond n x y) by (intros; now apply f_cond_add).
  split; [|split].
  - constructor.
    + now apply SInv_add.
    + cbn [n' tables f_add_cond]. rewrite add_cond_star_other by congruence. exact E.
    + eapply same_frame_trans; [exact F|apply add_cond_frame].
    + intros x. rewrite <- K. split.
      * intros J. apply add_cond_star_keys in J. destruct J as [J|[-> | ->]]; auto.
      * apply add_cond_star_keys_mono.
    + intros x. rewrite C. replace (same_pair i x (snd e1) (snd e2)) with false; [apply G|].
      symmetry. apply not_true_iff_false. rewrite same_pair_spec. intros [[? _]|[? _]]; congruence.
  - rewrite C. replace (same_pair (snd e1) (snd e2) (snd e1) (snd e2)) with true by (symmetry; apply same_pair_spec; auto).
    assert (EC : c = fdiv (fmul (f_cond n0 i (snd e1)) (f_cond n0 i (snd e2))) sum) by (unfold c; now rewrite (fstar_val n i star e1 I E J1), (fstar_val n i star e2 I E J2), !G).
    destruct (share_ok (f_cond n0 i (snd e1)) (f_cond n0 i (snd e2)) sum d Sx) as [FC RC]; try apply Hfine; try apply Hbig; try assumption.
    rewrite <- EC in FC, RC. fold (g n0 i (snd e1)) (g n0 i (snd e2)) in RC. fold (share (snd e1) (snd e2)) in RC.
    assert (SP := share_nonneg (snd e1) (snd e2)). assert (SB := share_big (snd e1) (snd e2)).
    unfold joined, upd. rewrite Q. replace (d + 3)%nat with (S (d + 2)) in Hw |- * by lia.
    destruct (dget (s (tables n)) (snd e1, snd e2)) eqn:ES.
    + apply join_ok; try assumption; [apply Hfine|apply Hbig].
    + split; [exact FC|]. assert (Z : g n0 (snd e1) (snd e2) = 0) by (unfold g; rewrite <- Q; unfold f_cond; rewrite ES; apply val_0). rewrite Z, Rplus_0_l.
      destruct (relabs_le (d + 2) (S (d + 2)) _ _ _ SP ltac:(lia) RC) as [Z1 Z2]. destruct tiny_small as [_ TP]. split; lra.
  - intros x y X. now rewrite C, X.
Qed.

Definition paired (a x y : nid) (l : list nid) : Prop := (x = a /\ In y l) \/ (y = a /\ In x l).
Lemma f_mesh_inner_ok rest : forall n e1, fmesh n -> In e1 star -> incl rest star -> ~ In (snd e1) (map snd rest) -> NoDup (map snd rest) ->
  (forall b, In b (map snd rest) -> f_cond n (snd e1) b = f_cond n0 (snd e1) b) ->
  let n' := f_mesh_inner n sum e1 rest in
  fmesh n' /\ (forall x y, paired (snd e1) x y (map snd rest) -> upd x y (f_cond n' x y)) /\ (forall x y, ~ paired (snd e1) x y (map snd rest) -> f_cond n' x y = f_cond n x y).
Proof.
  induction rest as [|e2 t IH]; intros n e1 M J1 Inc Na Nd Q; cbn zeta.
  - split; [exact M|]. split; [|reflexivity]. intros x y [[_ []]|[_ []]].
  - cbn [f_mesh_inner map] in *. inversion Nd as [|? ? Nb Nt]; subst.
    assert (N12 : snd e1 <> snd e2) by (intros X; apply Na; left; auto).
    destruct (fmesh_add n e1 e2 M J1 (Inc e2 (or_introl eq_refl)) N12 (Q _ (or_introl eq_refl))) as (M' & U' & C').
    set (n1 := f_add_cond n (snd e1) (snd e2) _) in *.
    destruct (IH n1 e1 M' J1) as (M2 & U2 & C2).
    { intros x X. apply Inc. now right. } { intros X. apply Na. now right. } { exact Nt. }
    { intros b B. rewrite C'; [apply Q; now right|]. apply not_true_iff_false. rewrite same_pair_spec. intros [[_ ->]|[X _]]; [contradiction|congruence]. }
    split; [exact M2|]. split.
    + intros x y P. destruct P as [[-> [<- | Y]]|[-> [<- | X]]].
      * rewrite C2; [exact U'|]. intros [[_ X]|[X _]]; [contradiction|congruence].
      * apply U2. left; auto.
      * rewrite C2; [rewrite (f_cond_sym n1 _ _ (fm_inv _ M')); now apply upd_sym|]. intros [[X _]|[_ X]]; [congruence|contradiction].
      * apply U2. right; auto.
    + intros x y P. rewrite C2.
      * apply C'. apply not_true_iff_false. rewrite same_pair_spec. intros [[-> ->]|[-> ->]]; apply P; [left|right]; cbn; auto.
      * intros [[-> X]|[-> X]]; apply P; [left|right]; cbn; auto.
Qed.
Lemma f_mesh_ok rest : forall n, fmesh n -> incl rest star -> NoDup (map snd rest) ->
  (forall x y, In x (map snd rest) -> In y (map snd rest) -> f_cond n x y = f_cond n0 x y) ->
  let n' := f_mesh n sum rest in
  fmesh n' /\ (forall x y, x <> y -> In x (map snd rest) -> In y (map snd rest) -> upd x y (f_cond n' x y)) /\
  (forall x y, ~ (In x (map snd rest) /\ In y (map snd rest)) -> f_cond n' x y = f_cond n x y).
Proof.
  induction rest as [|e1 t IH]; intros n M Inc Nd Q; cbn zeta.
  - split; [exact M|]. split; [intros x y _ []|reflexivity].
  - cbn [f_mesh map] in *. inversion Nd as [|? ? Na Nt]; subst.
    destruct (f_mesh_inner_ok t n e1 M (Inc e1 (or_introl eq_refl))) as (M1 & U1 & C1).
    { intros x X. apply Inc. now right. } { exact Na. } { exact Nt. } { intros b B. apply Q; [now left|now right]. }
    set (n1 := f_mesh_inner n sum e1 t) in *.
    destruct (IH n1 M1) as (M2 & U2 & C2).
    { intros x X. apply Inc. now right. } { exact Nt. }
    { intros x y X Y. rewrite C1; [apply Q; now right|]. intros [[-> _]|[-> _]]; contradiction. }
    split; [exact M2|]. split.
    + intros x y N [<- | X] [<- | Y].
      * congruence.
      * rewrite C2 by (intros [? _]; contradiction). apply U1. left; auto.
      * rewrite C2 by (intros [_ ?]; contradiction). apply U1. right; auto.
      * now apply U2.
    + intros x y P. rewrite C2 by (intros [? ?]; apply P; split; now right). apply C1. intros [[-> X]|[-> X]]; apply P; split; cbn; auto.
Qed.
End Mesh.

(** ** one elimination *)
Definition star_cond (n : fnet) (i : nid) : R := rsum (g n i) (f_nodes n).
Definition all_fine (n : fnet) : Prop := forall x y, fine (f_cond n x y).
Definition tiny_star : R := 11 / 100000000000.
Definition meshed (n : fnet) (i : nid) (n' : fnet) : Prop :=
  0 < star_cond n i /\ forall x y, x <> i -> y <> i -> x <> y ->
    relabs (List.length (f_nodes n) + 3) (2 * tiny_g) (g n' x y) (g n x y + g n i x * g n i y / star_cond n i).
Definition dropped (n : fnet) (i : nid) (n' : fnet) : Prop :=
  star_cond n i <= tiny_star /\ forall x y, x <> i -> y <> i -> g n' x y = g n x y.

Lemma star_sum_val n i star : SInv n -> dget (node_to_s (tables n)) i = Some star -> rsum (@B2R prec emax) (map (fun e => fget (objects n) (fst e)) star) = star_cond n i.
Proof.
  intros I E. rewrite rsum_map. rewrite (rsum_ext _ (fun e => g n i (snd e))) by (intros e J; unfold g; now rewrite (fstar_val n i star e I E J)).
  rewrite <- (rsum_map (g n i) snd). symmetry. apply rsum_support.
  - exact (NoDup_node_list (si_inv _ I)).
  - exact (star_nd (si_inv _ I) _ E).
  - eapply star_incl; [exact (si_inv _ I)|exact E].
  - intros x _ X. unfold g. rewrite (fcond_not_star n i star x I E X). apply val_0.
Qed.
Lemma star_length n i star : SInv n -> dget (node_to_s (tables n)) i = Some star -> (List.length star <= List.length (f_nodes n))%nat.
Proof. intros I E. rewrite <- (map_length snd). apply NoDup_incl_length; [exact (star_nd (si_inv _ I) _ E)|eapply star_incl; [exact (si_inv _ I)|exact E]]. Qed.
Lemma star_sum_fold n star : f_star_sum n star = fold_left fadd (map (fun e => fget (objects n) (fst e)) star) (of_int 0).
Proof. unfold f_star_sum. generalize (of_int 0). induction star as [|e t IH]; intros a; cbn; [reflexivity|apply IH]. Qed.

Lemma threshold_val : is_finite (lit 1 10000000000) = true /\ Rabs (val (lit 1 10000000000) - / 10000000000) <= / 1000000000000.
Proof.
  destruct (near_lit 1 10000000000) as (F & R & _); [lia|unfold short; lia|]. split; [exact F|].
  assert (A : Rabs (val (lit 1 10000000000) - 1 / 10000000000) <= 3 * INR 2 * u * (1 / 10000000000)) by (apply rel_abs; [lia|lra|exact R]).
  replace (/ 10000000000) with (1 / 10000000000) by lra. eapply Rle_trans; [exact A|]. unfold u. simpl. lra.
Qed.
Lemma significant_val x : fine x -> (f_significant x = true -> 99 / 1000000000000 <= val x) /\ (f_significant x = false -> val x <= 101 / 1000000000000).
Proof.
  intros [F P]. destruct threshold_val as [TF TV]. apply abs_le in TV.
  assert (FB : is_finite (Babs x) = true) by (destruct x; auto; discriminate). assert (VB : val (Babs x) = val x) by (rewrite B2R_Babs; apply Rabs_pos_eq, P).
  assert (X := flt_ok _ _ TF FB). rewrite VB in X. unfold f_significant. split; intros H; [apply X in H; lra|].
  apply Rnot_lt_le. intros L. assert (flt (lit 1 10000000000) (Babs x) = true) by (apply X; lra). congruence.
Qed.

Lemma f_eliminate_ok n i : SInv n -> all_fine n -> (forall x y, g n x y <= 10 ^ 75) -> In i (dkeys (node_to_s (tables n))) -> star_cond n i <= 10 ^ 150 ->
  w ^ (List.length (f_nodes n) + 3) <= 101 / 100 ->
  exists n', f_eliminate_node n i = Some n' /\ SInv n' /\ all_fine n' /\ node_gone (tables n) i (tables n') /\ (meshed n i n' \/ dropped n i n').
Proof.
  intros I A B J SB W. destruct (dkeys_dget _ _ J) as [star E]. unfold f_eliminate_node. rewrite E.
  assert (LS := star_length n i star I E). set (N := List.length (f_nodes n)) in *.
  assert (W2 : w ^ (N + 3) <= 2) by lra. assert (W1 : w ^ N <= 101 / 100) by (assert (w ^ N <= w ^ (N + 3)) by (apply w_le; lia); lra).
  assert (SP : 0 <= star_cond n i) by (apply rsum_nonneg; intros; apply A).
  destruct (sum_rel (map (fun e => fget (objects n) (fst e)) star) (of_int 0) 0 0) as [FS RS].
  { exact zero_fine. }
  { apply Forall_forall. intros c C. apply in_map_iff in C. destruct C as (e & <- & C). rewrite (fstar_val n i star e I E C). apply A. }
  { lra. } { rewrite val_0. apply rel_refl. lra. }
  { rewrite map_length. assert (w ^ (0 + List.length star) <= w ^ N) by (apply w_le; lia). lra. }
  { rewrite (star_sum_val n i star I E), Rplus_0_l. exact SB. }
  rewrite <- star_sum_fold, (star_sum_val n i star I E), Rplus_0_l, map_length in RS. rewrite <- star_sum_fold in FS.
  set (sum := f_star_sum n star) in *.
  assert (RN : rel N (val sum) (star_cond n i)) by (apply (rel_le (0 + List.length star)); [exact SP|lia|exact RS]).
  assert (Fine' : forall t m, SInv (FNet t (objects m)) -> node_gone (tables m) i t -> all_fine m -> (forall x y, x <> i -> y <> i -> f_cond (FNet t (objects m)) x y = f_cond m x y) -> all_fine (FNet t (objects m))).
  { intros t m I' G F C x y. assert (Z : forall x y, x = i \/ y = i -> f_cond (FNet t (objects m)) x y = of_int 0).
    { intros a b AB. unfold f_cond. cbn [tables objects]. destruct (dget (s t) (a, b)) as [r|] eqn:ER; [|reflexivity]. exfalso.
      destruct (s_loc _ _ (si_inv _ I') ER) as [L1 L2]. cbn in L1, L2. change (dkeys (locations t)) with (node_list t) in *. rewrite (ng_list G) in L1, L2. apply in_remove in L1. apply in_remove in L2. destruct AB; tauto. }
    destruct (Nat.eq_dec x i) as [X|X]; [rewrite Z by auto; exact zero_fine|]. destruct (Nat.eq_dec y i) as [Y|Y]; [rewrite Z by auto; exact zero_fine|]. rewrite C by assumption. apply F. }
  destruct (f_significant sum) eqn:Sg.
  - assert (LO := proj1 (significant_val _ FS) Sg).
    assert (SPos : 0 < star_cond n i). { destruct SP as [SP|SP]; [exact SP|]. exfalso. destruct RN as [_ RN]. rewrite <- SP in RN. lra. }
    destruct (f_mesh_ok i sum (star_cond n i) N n star I A B FS ltac:(lra) SPos RN W2 star n) as (M & U & C).
    { now apply fmesh_start. } { apply incl_refl. } { exact (star_nd (si_inv _ I) _ E). } { reflexivity. }
    set (n1 := f_mesh n sum star) in *.
    assert (F1 : all_fine n1).
    { intros x y. destruct (Nat.eq_dec x y) as [-> | Nxy]; [rewrite (f_cond_irr _ _ (fm_inv _ _ _ _ M)); exact zero_fine|].
      destruct (in_dec Nat.eq_dec x (map snd star)) as [X|X]; [|rewrite C by tauto; apply A].
      destruct (in_dec Nat.eq_dec y (map snd star)) as [Y|Y]; [|rewrite C by tauto; apply A]. exact (proj1 (U x y Nxy X Y)). }
    destruct (f_remove n1 i (fm_inv _ _ _ _ M)) as (t & R & I' & G & C').
    { apply (fm_keys _ _ _ _ M). exact J. }
    rewrite R. exists (FNet t (objects n1)). split; [reflexivity|]. split; [exact I'|]. split; [now apply Fine'|]. split.
    + assert (F := fm_frame _ _ _ _ M). cbn [tables]. destruct G; constructor; auto.
      * intros x. rewrite ng_locs, (sf_locs F). reflexivity.
      * rewrite ng_list. unfold node_list. now rewrite (sf_locs F).
      * rewrite ng_next. apply F.
      * rewrite ng_prec. apply F.
      * rewrite ng_names. apply F.
      * intros x. rewrite ng_keys, (fm_keys _ _ _ _ M). reflexivity.
    + left. split; [exact SPos|]. intros x y X Y Nxy. unfold g at 1. rewrite C' by assumption.
      assert (ZZ : ~ (In x (map snd star) /\ In y (map snd star)) -> relabs (N + 3) (2 * tiny_g) (val (f_cond n1 x y)) (g n x y + g n i x * g n i y / star_cond n i)).
      { intros NI. rewrite C by exact NI. assert (Z : g n i x * g n i y = 0).
        { destruct (in_dec Nat.eq_dec x (map snd star)) as [X'|X']; [|unfold g at 1; rewrite (fcond_not_star n i star x I E X'), val_0; ring].
          destruct (in_dec Nat.eq_dec y (map snd star)) as [Y'|Y']; [tauto|]. unfold g at 2. rewrite (fcond_not_star n i star y I E Y'), val_0. ring. }
        rewrite Z. unfold Rdiv at 1. rewrite Rmult_0_l, Rplus_0_r. apply (relabs_le 0); [apply A|lia|]. fold (g n x y). destruct tiny_small as [_ TP]. unfold relabs. simpl. lra. }
      destruct (in_dec Nat.eq_dec x (map snd star)) as [X'|X']; [|apply ZZ; tauto]. destruct (in_dec Nat.eq_dec y (map snd star)) as [Y'|Y']; [|apply ZZ; tauto].
      exact (proj2 (U x y Nxy X' Y')).
  - assert (HI := proj2 (significant_val _ FS) Sg). destruct (f_remove n i I J) as (t & R & I' & G & C').
    rewrite R. exists (FNet t (objects n)). split; [reflexivity|]. split; [exact I'|]. split; [now apply Fine'|]. split; [exact G|].
    right. split; [|intros x y X Y; unfold g; now rewrite C'].
    destruct RN as [RN _]. assert (1 <= w ^ N) by apply w_pos. assert (R1 : star_cond n i <= val sum * w ^ N).
    { apply Rmult_le_reg_r with (/ w ^ N); [apply Rinv_0_lt_compat; lra|]. rewrite Rmult_assoc, Rinv_r, Rmult_1_r by lra. exact RN. }
    assert (val sum * w ^ N <= 101 / 1000000000000 * (101 / 100)) by (apply Rmult_le_compat; try lra; exact (proj2 FS)). unfold tiny_star. lra.
Qed.
