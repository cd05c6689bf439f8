(** C95: eliminating nodes of a resistor network keeps its electrical behaviour in spite of rounding. *)
From Coq Require Import ZArith Reals Lra Lia Psatz List.
From Flocq Require Import Core.Core IEEE754.BinarySingleNaN.
From Verif Require Import PyBase FP_Model FP_Spec FP_Proofs FC_Model FC_Spec FC_Proofs FC_Caps RN_Model RN_Spec RN_Inv RN_Ops RN_Elim RN_All RF_Model RF_Spec RF_Proofs RF_Num RF_Mesh RF_Power RF_All.
Import ListNotations.
Local Close Scope Qc_scope.
Local Open Scope R_scope.

Lemma precious_calls l : forall n a, In a (precious (tables (fold_left f_call l n))) <-> In a (precious (tables n)) \/ In (CPrecious a) l.
Proof.
  induction l as [|c l IH]; intros n a; cbn [fold_left In]; [tauto|]. rewrite IH.
  assert (X : In a (precious (tables (f_call n c))) <-> In a (precious (tables n)) \/ c = CPrecious a); [|tauto].
  destruct c as [p|i|b d x]; cbn [f_call].
  - unfold f_node_id, node_id. destruct (dget (nodes (tables n)) p); cbn; (split; [auto|intros [H|H]; [exact H|discriminate]]).
  - cbn. destruct (in_dec Nat.eq_dec i (precious (tables n))) as [J|J].
    + split; [auto|]. intros [H|H]; [exact H|]. injection H as ->. exact J.
    + rewrite in_app_iff. cbn. split; [intros [H|[-> | []]]; auto|intros [H|H]; [auto|injection H as ->; auto]].
  - cbn [f_add_cond tables]. replace (precious (add_cond (tables n) b d (Q2Qc 0))) with (precious (tables n)) by (symmetry; apply (sf_prec (add_cond_frame (tables n) b d (Q2Qc 0)))).
    split; [auto|]. intros [H|H]; [exact H|discriminate].
Qed.
Lemma star_calls l : forall n a, In a (dkeys (node_to_s (tables (fold_left f_call l n)))) -> In a (dkeys (node_to_s (tables n))) \/ exists b x, In (CCond a b x) l \/ In (CCond b a x) l.
Proof.
  induction l as [|c l IH]; intros n a H; cbn [fold_left] in H; [now left|]. destruct (IH _ _ H) as [X|(b & x & X)]; [|right; exists b, x; cbn; tauto].
  destruct c as [p|i|b d x]; cbn [f_call] in X.
  - left. unfold f_node_id, node_id in X. destruct (dget (nodes (tables n)) p); exact X.
  - now left.
  - cbn [f_add_cond tables] in X. apply add_cond_star_keys in X. destruct X as [X|[-> | ->]]; [now left| |]; right; [exists d, x|exists b, x]; cbn; auto.
Qed.
Lemma built l v : calls_ok fempty l -> added l <= 10 ^ 70 -> INR (List.length l) <= 10 ^ 12 ->
  SInv (f_build l) /\ all_fine (f_build l) /\ rel (List.length l) (all_cond (f_build l)) (added l) /\ rel (List.length l) (power (f_build l) v) (drawn l v).
Proof.
  intros O B L.
  assert (R0 : rel 0 0 0) by (apply rel_refl; lra).
  assert (X := build_ok (fun a b => sq (v a - v b)) l ltac:(intros; unfold sq; ring) ltac:(intros; apply sq_pos) fempty 0 0 0 SInv_empty fine_empty O ltac:(lra) ltac:(lra)).
  rewrite Rplus_0_l in X. cbn zeta in X. destruct X as (I & A & R1 & R2).
  - replace (all_cond fempty) with 0 by (change (0 = / 2 * 0); ring). exact R0.
  - replace (wsum (fun a b => sq (v a - v b)) fempty) with 0 by (change (0 = / 2 * 0); ring). exact R0.
  - exact B.
  - assert (W := w_million (List.length l)). cbn [Nat.add]. assert (0 < 10 ^ 12) by apply ten_pos. specialize (W ltac:(lra)). lra.
  - rewrite Rplus_0_l in R2. auto.
Qed.

(** Parallel resistors add up: the network of any calls takes the power of its resistors, up to one rounding for each call. *)
Theorem C95_built : forall l v, calls_ok fempty l -> added l <= 10 ^ 70 -> INR (List.length l) <= 10 ^ 12 ->
  drawn l v / (1 + 2 * half_ulp) ^ List.length l <= power (f_build l) v <= drawn l v * (1 + 2 * half_ulp) ^ List.length l.
Proof. intros l v O B L. exact (proj2 (proj2 (proj2 (built l v O B L)))). Qed.

Lemma eliminated l : calls_ok fempty l -> moderate l -> let N := List.length (f_nodes (f_build l)) in
  exists n' K, f_eliminate_all (f_build l) = Done n' /\ good N n' /\ (K <= N)%nat /\ close N K (f_build l) n' /\
    (forall a, In a (f_nodes (f_build l)) -> In (CPrecious a) l -> In a (f_nodes n')) /\
    (forall a, In a (dkeys (node_to_s (tables n'))) -> In (CPrecious a) l) /\
    (forall a, In a (f_nodes (f_build l)) -> (forall b x, ~ In (CCond a b x) l /\ ~ In (CCond b a x) l) -> In a (f_nodes n')).
Proof.
  intros O (B & L & HN) N. destruct (built l (fun _ => 0) O B L) as (I & A & R & _). fold N in HN. assert (HN' : INR N <= 1000000) by (simpl in HN; lra).
  assert (AN := added_nonneg l fempty O).
  assert (WL : w ^ List.length l <= 1001 / 1000) by (apply w_million; assert (0 < 10 ^ 12) by apply ten_pos; lra).
  assert (TB : all_cond (f_build l) <= 10 ^ 73).
  { destruct R as [_ R]. assert (1 <= w ^ List.length l) by apply w_pos. assert (added l * w ^ List.length l <= 10 ^ 70 * (1001 / 1000)) by (apply Rmult_le_compat; lra).
    assert (X := ten_le 71 73 ltac:(lia)). replace (10 ^ 71) with (10 * 10 ^ 70) in X by (simpl; ring). assert (0 < 10 ^ 70) by apply ten_pos. lra. }
  assert (KL : (List.length (node_to_s (tables (f_build l))) <= N)%nat).
  { replace (List.length (node_to_s (tables (f_build l)))) with (List.length (dkeys (node_to_s (tables (f_build l))))) by (unfold dkeys; apply map_length).
    apply NoDup_incl_length; [exact (wf_stars (si_inv _ I))|]. intros x X. now apply keys_nodes. }
  destruct (f_loop_ok N HN' (all_cond (f_build l)) (elim_fuel (tables (f_build l))) (conj (all_cond_nonneg _ A) TB) (f_build l) 3 0) as (n' & K & E & G & LK & C & P & V & V2 & U).
  - now constructor.
  - unfold budget. simpl. lra.
  - lia.
  - left. unfold elim_fuel. lia.
  - exists n', K. split; [exact E|]. split; [exact G|]. split; [lia|]. split; [exact C|]. split; [|split].
    + intros a X Y. apply V; [exact X|]. apply precious_calls. now right.
    + intros a X. apply U in X. apply precious_calls in X. destruct X as [[]|X]; exact X.
    + intros a X Y. apply V2; [exact X|]. intros Z. apply star_calls in Z. destruct Z as [[]|(b & x & Z)]. specialize (Y b x). tauto.
Qed.

(** Eliminating never fails.  The marked nodes stay and so do those without resistors, no other node keeps a resistor, and the conductances are numbers that are not negative. *)
Theorem C95_done : forall l, calls_ok fempty l -> moderate l ->
  exists n', f_eliminate_all (f_build l) = Done n' /\
    incl (f_nodes n') (f_nodes (f_build l)) /\
    (forall a, In a (f_nodes (f_build l)) -> In (CPrecious a) l -> In a (f_nodes n')) /\
    (forall a, In a (f_nodes (f_build l)) -> (forall b x, ~ In (CCond a b x) l /\ ~ In (CCond b a x) l) -> In a (f_nodes n')) /\
    (forall a b, ~ In (CPrecious a) l \/ ~ In (CPrecious b) l -> g n' a b = 0) /\
    (forall a b, is_finite (f_cond n' a b) = true /\ 0 <= g n' a b).
Proof.
  intros l O M. destruct (eliminated l O M) as (n' & K & E & G & LK & C & V & U & V2). exists n'. split; [exact E|]. split; [exact (cl_nodes _ _ _ _ C)|]. split; [exact V|]. split; [exact V2|].
  assert (I := gd_inv _ _ G). split; [|intros a b; exact (gd_fine _ _ G a b)].
  assert (Z : forall a b, ~ In (CPrecious a) l -> g n' a b = 0).
  { intros a b NP. unfold g, f_cond. destruct (dget (s (tables n')) (a, b)) as [r|] eqn:ES; [|apply val_0]. exfalso. apply NP, U. destruct (s_star (si_inv _ I) _ _ ES) as (st & L & _). exact (dget_Some_key _ _ L). }
  intros a b [H|H]; [now apply Z|]. rewrite (g_sym n' a b I). now apply Z.
Qed.

(** Whatever the voltages are, what is left takes at most the power of the resistors of the calls, up to the rounding.
    And to any voltages of what is left, there are voltages of the other nodes, in the same range, so that the resistors of the calls take at most
    the power of what is left, up to the rounding and to what is dropped at nodes with nearly no conductance. *)
Theorem C95_power : forall l, calls_ok fempty l -> moderate l ->
  let N := List.length (f_nodes (f_build l)) in let most := factor N * (1 + 2 * half_ulp) ^ List.length l in
  exists n', f_eliminate_all (f_build l) = Done n' /\
    (forall v lo hi, lo <= hi -> between (f_build l) v lo hi -> power n' v <= most * drawn l v + / 10 ^ 250 * (hi - lo) ^ 2) /\
    (forall v lo hi, lo <= hi -> between n' v lo hi ->
       exists x, agrees n' v x /\ between (f_build l) x lo hi /\ drawn l x <= most * power n' v + INR N * (12 / 10 ^ 11) * (hi - lo) ^ 2).
Proof.
  intros l O M N most. assert (M' := M). destruct M' as (B & L & HN). fold N in HN. assert (HN' : INR N <= 1000000) by (simpl in HN; lra).
  destruct (eliminated l O M) as (n' & K & E & G & LK & C & _). fold N in G, LK, C. exists n'. split; [exact E|].
  assert (AN := gd_fine _ _ G). assert (WL : w ^ List.length l <= 1001 / 1000) by (apply w_million; assert (0 < 10 ^ 12) by apply ten_pos; lra). assert (WL1 : 1 <= w ^ List.length l) by apply w_pos.
  assert (WK : W0 N ^ K <= factor N) by (rewrite <- W0_factor; apply Rle_pow; [apply W0_ge1|exact LK]). assert (WK1 := W0_pow_ge1 N K). assert (FS := factor_small N HN').
  assert (E0 := e0_pos N). assert (E0s := e0_small N HN'). assert (KI := le_INR _ _ LK). assert (KP := pos_INR K).
  assert (W01 := W0_ge1 N).
  change ((1 + 2 * half_ulp) ^ List.length l) with (w ^ List.length l) in most.
  split; intros v lo hi LH Bt; replace ((hi - lo) ^ 2) with (sq (hi - lo)) by (unfold sq; ring); assert (PD := sq_pos (hi - lo)).
  - assert (X := cl_less _ _ _ _ C v lo hi LH Bt). destruct (built l v O B L) as (_ & A & _ & [_ R]). assert (PN := power_nonneg _ v A).
    assert (X1 : W0 N ^ K * power (f_build l) v <= factor N * (drawn l v * w ^ List.length l)) by (apply Rmult_le_compat; lra).
    assert (X2 : INR K * W0 N ^ K * e0 N <= / 10 ^ 250).
    { apply Rle_trans with (1000000 * (1001 / 1000) * / 10 ^ 268).
      - apply Rmult_le_compat; try lra; [apply Rmult_le_pos; lra|]. apply Rmult_le_compat; lra.
      - replace 268%nat with (18 + 250)%nat by reflexivity. rewrite pow_add, Rinv_mult. assert (P := Rinv_0_lt_compat _ (ten_pos 250)). rewrite <- Rmult_assoc. rewrite <- (Rmult_1_l (/ 10 ^ 250)) at 2. apply Rmult_le_compat_r; [lra|]. simpl. lra. }
    assert (X3 : INR K * W0 N ^ K * e0 N * sq (hi - lo) <= / 10 ^ 250 * sq (hi - lo)) by (now apply Rmult_le_compat_r). unfold most. lra.
  - destruct (cl_more _ _ _ _ C v lo hi LH Bt) as (x & Ag & Bx & X). exists x. split; [exact Ag|]. split; [exact Bx|].
    destruct (built l x O B L) as (_ & A & _ & [R _]). assert (PN := power_nonneg _ v AN).
    assert (R' : drawn l x <= w ^ List.length l * power (f_build l) x). { replace (drawn l x) with (w ^ List.length l * (drawn l x / w ^ List.length l)) by (field; lra). apply Rmult_le_compat_l; lra. }
    assert (X1 : W0 N ^ K * power n' v <= factor N * power n' v) by (now apply Rmult_le_compat_r).
    assert (E2 := e2_pos N).
    assert (E2s : e2 N <= 111 / 1000000000000).
    { unfold e2, tiny_star. assert (W0 N * e0 N <= 2 * / 10 ^ 268).
      { apply Rmult_le_compat; try lra. destruct N as [|N']; [unfold W0; simpl; unfold w, u; lra|]. assert (Y := W0_pow (S N') HN' 1 ltac:(lia)). rewrite pow_1 in Y. lra. }
      assert (/ 10 ^ 268 <= / 10 ^ 15) by (apply ten_inv_le; lia). assert (Z : / 10 ^ 15 = / 1000000000000000) by (f_equal; simpl; ring). lra. }
    assert (X2 : INR K * W0 N ^ K * e2 N <= INR N * (1001 / 1000) * (111 / 1000000000000)).
    { apply Rmult_le_compat; try lra; [apply Rmult_le_pos; lra|]. apply Rmult_le_compat; lra. }
    assert (X3 : INR K * W0 N ^ K * e2 N * sq (hi - lo) <= INR N * (1001 / 1000) * (111 / 1000000000000) * sq (hi - lo)) by (now apply Rmult_le_compat_r).
    assert (X4 : w ^ List.length l * power (f_build l) x <= w ^ List.length l * (factor N * power n' v + INR N * (1001 / 1000) * (111 / 1000000000000) * sq (hi - lo))) by (apply Rmult_le_compat_l; lra).
    assert (NP := pos_INR N). assert (ND : 0 <= INR N * sq (hi - lo)) by (now apply Rmult_le_pos).
    assert (X5 : w ^ List.length l * (INR N * sq (hi - lo)) <= 1001 / 1000 * (INR N * sq (hi - lo))) by (apply Rmult_le_compat_r; lra).
    assert (X6 : 12 / 10 ^ 11 = 12 / 100000000000) by (f_equal; f_equal; simpl; ring). rewrite X6. unfold most. lra.
Qed.

(** The factor is harmless. *)
Theorem C95_factor : forall N, INR N <= 10 ^ 6 -> 1 <= factor N <= 1 + 3 / 10 ^ 4.
Proof.
  intros N H. rewrite factor_w. split; [apply w_pos|]. assert (P := pos_INR N). assert (UP := u_pos).
  assert (X : INR (N * (N + 3)) <= 1000004 * 1000000) by (rewrite mult_INR, plus_INR; simpl (INR 3); simpl in H; nra). set (k := (N * (N + 3))%nat) in *. assert (PK := pos_INR k).
  assert (Y : 2 * INR k * u <= 23 / 100000) by (unfold u in *; lra). assert (B := w_bound k ltac:(lra)). assert (1 <= w ^ k) by apply w_pos. replace (3 / 10 ^ 4) with (3 / 10000) by (f_equal; f_equal; simpl; ring). nra.
Qed.

(** ** Example: a node with three neighbours, two of them joined by two resistors *)
Definition ex_calls : list call :=
  [CNode (0, 0)%Z; CNode (10, 0)%Z; CNode (20, 0)%Z; CNode (10, 10)%Z; CPrecious 0%nat; CPrecious 2%nat; CPrecious 3%nat;
   CCond 0%nat 1%nat (of_int 1); CCond 1%nat 2%nat (of_int 2); CCond 3%nat 1%nat (of_int 4); CCond 0%nat 2%nat (of_int 5); CCond 2%nat 0%nat (of_int 3)].
Example ex_ok : calls_ok fempty ex_calls /\ moderate ex_calls.
Proof.
  assert (V : forall k, (0 <= k < 10)%Z -> is_finite (of_int k) = true /\ 0 <= val (of_int k)) by (intros k K; destruct (of_int_ok k ltac:(lia)) as [F E]; split; [exact F|rewrite E; apply IZR_le; lia]).
  split.
  - cbn [calls_ok ex_calls]. repeat split; try discriminate; try (now apply V); cbv; tauto.
  - unfold moderate. split; [|split].
    + unfold added, ex_calls. cbn [rsum fold_right]. rewrite !(fun k H => proj2 (of_int_ok k H)) by lia. assert (X := ten_le 2 70 ltac:(lia)). simpl (10 ^ 2) in X. lra.
    + cbn [List.length ex_calls]. simpl (INR 12). simpl (10 ^ 12). lra.
    + replace (List.length (f_nodes (f_build ex_calls))) with 4%nat by (vm_compute; reflexivity). simpl. lra.
Qed.
(** What is left: the three outer nodes, with 8 + 2/7, 8/7 and 4/7 between them, rounded. *)
Example ex_eliminated : match f_eliminate_all (f_build ex_calls) with
  | Done n' => f_nodes n' = [0%nat; 2%nat; 3%nat] /\ B2SF (f_cond n' 0%nat 2%nat) = SpecFloat.S754_finite false 4664442471205157 (-49) /\
      B2SF (f_cond n' 2%nat 3%nat) = SpecFloat.S754_finite false 5146971002709138 (-52) /\ B2SF (f_cond n' 0%nat 3%nat) = SpecFloat.S754_finite false 5146971002709138 (-53)
  | _ => False end.
Proof. vm_compute. repeat split. Qed.
Print Assumptions C95_built.
Print Assumptions C95_done.
Print Assumptions C95_power.
Print Assumptions C95_factor.
