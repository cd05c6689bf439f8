(** eliminate_all: termination, what is left, electrical equivalence; check();
    histories of calls. *)
From Coq Require Import String Permutation.
From Verif Require Import PyBase RN_Model RN_Spec RN_Inv RN_Ops RN_Conn RN_Elim.
Set Implicit Arguments.
Local Open Scope Qc_scope.

(** ** sorting *)
Lemma insert_perm x l : Permutation (insert_sorted x l) (x :: l).
Proof.
  induction l as [|y t IH]; simpl; [reflexivity|]. destruct (Nat.leb x y); [reflexivity|].
  rewrite IH. apply perm_swap.
Qed.
Lemma sort_perm l : Permutation (sort_nat l) l.
Proof. induction l as [|x t IH]; simpl; [reflexivity|]. rewrite insert_perm, IH. reflexivity. Qed.

(** ** scan *)
Lemma scan_ok n nmax te nx : scan n nmax = (te, nx) ->
  te = filter (fun i => negb (is_precious n i) && Nat.leb (degree n i) nmax) (sort_nat (dkeys (node_to_s n))) /\
  match nx with
  | None => forall i, In i (dkeys (node_to_s n)) -> is_precious n i = false -> (degree n i <= nmax)%nat
  | Some m => exists i, In i (dkeys (node_to_s n)) /\ is_precious n i = false /\ degree n i = m
  end.
Proof.
  unfold scan.
  set (f := fun acc i => _).
  assert (G : forall l te0 nx0 te1 nx1, fold_left f l (te0, nx0) = (te1, nx1) ->
    te1 = te0 ++ filter (fun i => negb (is_precious n i) && Nat.leb (degree n i) nmax) l /\
    (nx1 = nx0 \/ match nx1 with None => False | Some m => exists i, In i l /\ is_precious n i = false /\ degree n i = m end) /\
    (nx1 = None -> forall i, In i l -> is_precious n i = false -> (degree n i <= nmax)%nat)).
  { induction l as [|i l IH]; intros te0 nx0 te1 nx1; cbn [fold_left].
    - intros [= <- <-]. cbn. rewrite app_nil_r. intuition.
    - intros E.
      assert (Mono : forall l te0 m te1 nx1, fold_left f l (te0, Some m) = (te1, nx1) -> nx1 <> None).
      { clear. induction l as [|i l IH]; intros te0 m te1 nx1; cbn [fold_left]; [intros [= <- <-]; discriminate|].
        unfold f at 2. destruct (is_precious n i); [apply IH|]. destruct (Nat.leb _ _); [apply IH|].
        destruct (Nat.ltb _ _); apply IH. }
      unfold f at 2 in E. cbn [filter]. destruct (is_precious n i) eqn:P; cbn [negb andb].
      + apply IH in E. destruct E as (-> & A & B). split; [reflexivity|]. split.
        * destruct A as [A|A]; [auto|]. right. destruct nx1; [|destruct A]. destruct A as (j & ? & ? & ?); exists j; cbn; auto.
        * intros Z j [<-|J] Pj; [congruence|auto].
      + destruct (Nat.leb (degree n i) nmax) eqn:D.
        * apply IH in E. destruct E as (-> & A & B). split; [rewrite <- app_assoc; reflexivity|]. split.
          -- destruct A as [A|A]; [auto|]. right. destruct nx1; [|destruct A]. destruct A as (j & ? & ? & ?); exists j; cbn; auto.
          -- intros Z j [<-|J] Pj; [apply Nat.leb_le; auto|auto].
        * destruct nx0 as [m|].
          -- destruct (Nat.ltb (degree n i) m).
             ++ pose proof (Mono _ _ _ _ _ E). apply IH in E. destruct E as (-> & A & B). split; [reflexivity|].
                split; [|intros Z; contradiction]. right. destruct nx1; [|contradiction].
                destruct A as [A|A]; [injection A as ->; exists i; cbn; auto|].
                destruct A as (j & ? & ? & ?); exists j; cbn; auto.
             ++ pose proof (Mono _ _ _ _ _ E). apply IH in E. destruct E as (-> & A & B). split; [reflexivity|].
                split; [|intros Z; contradiction]. destruct A as [A|A]; [auto|]. right.
                destruct nx1; [|contradiction]. destruct A as (j & ? & ? & ?); exists j; cbn; auto.
          -- pose proof (Mono _ _ _ _ _ E). apply IH in E. destruct E as (-> & A & B). split; [reflexivity|].
             split; [|intros Z; contradiction]. right. destruct nx1; [|contradiction].
             destruct A as [A|A]; [injection A as ->; exists i; cbn; auto|].
             destruct A as (j & ? & ? & ?); exists j; cbn; auto. }
  intros E. apply G in E. cbn [app] in E. destruct E as (-> & A & B). split; [reflexivity|].
  pose proof (sort_perm (dkeys (node_to_s n))) as P. destruct nx as [m|].
  - destruct A as [A|A]; [discriminate|]. destruct A as (i & J & ? & ?). exists i.
    split; [apply (Permutation_in _ P); exact J|auto].
  - intros i J; apply B; [reflexivity|]. apply (Permutation_in _ (Permutation_sym P)); exact J.
Qed.

Lemma scan_te n nmax i : In i (fst (scan n nmax)) <->
  In i (dkeys (node_to_s n)) /\ is_precious n i = false /\ (degree n i <= nmax)%nat.
Proof.
  destruct (scan n nmax) as [te nx] eqn:E. apply scan_ok in E. destruct E as [-> _]. cbn [fst].
  rewrite filter_In, andb_true_iff, negb_true_iff, Nat.leb_le.
  pose proof (sort_perm (dkeys (node_to_s n))) as P.
  split; intros (A & B & C); repeat split; auto.
  - apply (Permutation_in _ P); exact A.
  - apply (Permutation_in _ (Permutation_sym P)); exact A.
Qed.
Lemma scan_nodup n nmax : Inv n -> NoDup (fst (scan n nmax)).
Proof.
  intros I. destruct (scan n nmax) as [te nx] eqn:E. apply scan_ok in E. destruct E as [-> _]. cbn [fst].
  apply NoDup_filter. eapply Permutation_NoDup; [symmetry; apply sort_perm|]. apply I.
Qed.

(** ** a list of eliminations *)
Lemma node_gone_length n i n1 : Inv n -> node_gone n i n1 -> In i (dkeys (node_to_s n)) ->
  List.length (node_to_s n) = S (List.length (node_to_s n1)).
Proof.
  intros I G J.
  assert (P : Permutation (i :: dkeys (node_to_s n1)) (dkeys (node_to_s n))).
  { apply NoDup_Permutation.
    - constructor; [|apply G]. intros Q. apply (ng_keys G) in Q. tauto.
    - apply I.
    - intros x; cbn. rewrite (ng_keys G). destruct (Nat.eq_dec i x) as [->|]; intuition congruence. }
  apply Permutation_length in P. unfold dkeys in P. cbn in P. rewrite !map_length in P. lia.
Qed.

Lemma eliminate_list_ok l : forall n, Inv n -> NoDup l -> incl l (dkeys (node_to_s n)) ->
  exists n1, eliminate_list n l = Some n1 /\ Inv n1 /\
    (forall x, In x (dkeys (node_to_s n1)) <-> In x (dkeys (node_to_s n)) /\ ~ In x l) /\
    (forall x, dget (locations n1) x = if in_dec Nat.eq_dec x l then None else dget (locations n) x) /\
    next_id n1 = next_id n /\ precious n1 = precious n /\ node_names n1 = node_names n /\
    (List.length (node_to_s n1) + List.length l = List.length (node_to_s n))%nat.
Proof.
  induction l as [|i l IH]; intros n I N Inc.
  - exists n. split; [reflexivity|]. split; [exact I|]. split; [intros x; cbn; tauto|].
    repeat (split; [reflexivity|]). cbn; lia.
  - inversion N; subst.
    assert (J : In i (dkeys (node_to_s n))) by (apply Inc; left; reflexivity).
    destruct (eliminate_node_ok _ I J) as (n1 & E & G & _).
    destruct (IH n1 (ng_inv G)) as (n2 & E2 & I2 & K & L & X & P & Nm & Len); auto.
    { intros x Jx. apply (ng_keys G). split; [intros ->; contradiction|]. apply Inc; right; exact Jx. }
    exists n2. split; [cbn; rewrite E; exact E2|]. split; [exact I2|].
    split; [|split; [|split; [|split; [|split]]]].
    + intros x. rewrite K, (ng_keys G). cbn. split.
      * intros [[A B] C]; split; [exact B|]. intros [->|D]; [congruence|contradiction].
      * intros [A B]. repeat split; [intros ->; apply B; auto|exact A|]. intros D; apply B; auto.
    + intros x. rewrite L, (ng_locs G). cbn [In].
      destruct (in_dec Nat.eq_dec x l) as [A|A], (in_dec Nat.eq_dec x (i :: l)) as [B|B], (eq_dec x i); auto;
        try (exfalso; apply B; cbn; auto; fail).
      destruct B as [B|B]; [congruence|contradiction].
    + rewrite X; apply G.
    + rewrite P; apply G.
    + rewrite Nm; apply G.
    + rewrite (node_gone_length I G J), <- Len. cbn; lia.
Qed.

Lemma eliminate_list_app l1 l2 n : eliminate_list n (l1 ++ l2) =
  match eliminate_list n l1 with Some n1 => eliminate_list n1 l2 | None => None end.
Proof.
  revert n; induction l1 as [|i l1 IH]; intros n; cbn; [reflexivity|].
  destruct (eliminate_node n i); [apply IH|reflexivity].
Qed.

Lemma NoDup_app' {A} (l m : list A) : NoDup l -> NoDup m -> (forall x, In x l -> ~ In x m) -> NoDup (l ++ m).
Proof.
  induction l as [|a l IH]; intros N1 N2 D; [exact N2|]. inversion N1; subst. cbn. constructor.
  - intros J; apply in_app_or in J. destruct J as [J|J]; [contradiction|]. apply (D a); [left; reflexivity|exact J].
  - apply IH; auto. intros x J; apply D; right; exact J.
Qed.

(** ** the loop *)
Lemma elim_loop_ok fuel : forall n nmax log,
  Inv n ->
  (2 * List.length (node_to_s n) + 2 <= fuel \/
   (2 * List.length (node_to_s n) + 1 <= fuel /\ fst (scan n nmax) <> []))%nat ->
  exists n1 log1, elim_loop fuel n nmax log = Done (n1, log ++ log1) /\
    eliminate_list n log1 = Some n1 /\ NoDup log1 /\ incl log1 (dkeys (node_to_s n)) /\
    (forall i, In i log1 -> is_precious n i = false) /\
    (forall i, In i (dkeys (node_to_s n1)) -> is_precious n1 i = true).
Proof.
  induction fuel as [|fuel IH]; intros n nmax log I F; [lia|].
  cbn [elim_loop]. destruct (scan n nmax) as [te nx] eqn:Sc.
  pose proof (scan_ok _ _ Sc) as [_ Nx].
  assert (Te : forall i, In i te <-> In i (dkeys (node_to_s n)) /\ is_precious n i = false /\ (degree n i <= nmax)%nat).
  { intros i. pose proof (scan_te n nmax i) as T. rewrite Sc in T. exact T. }
  assert (Nd : NoDup te) by (pose proof (scan_nodup nmax I) as T; rewrite Sc in T; exact T).
  destruct te as [|t0 te'].
  - destruct nx as [m|].
    + destruct Nx as (i & Ji & Pi & Di).
      destruct (IH n m log I) as (n1 & log1 & Q); [|exists n1, log1; exact Q].
      right. split; [destruct F as [F|[_ F]]; [lia|cbn in F; congruence]|].
      assert (In i (fst (scan n m))) as Q by (apply scan_te; rewrite Di; auto).
      intros Z; rewrite Z in Q; destruct Q.
    + exists n, []. rewrite app_nil_r. split; [reflexivity|]. split; [reflexivity|].
      split; [constructor|]. split; [intros x []|]. split; [intros x []|].
      intros i J. destruct (is_precious n i) eqn:P; [reflexivity|].
      exfalso. apply (proj2 (Te i)). auto.
  - set (te := t0 :: te') in *.
    destruct (@eliminate_list_ok te n I Nd) as (n1 & E & I1 & K & L & X & P & Nm & Len).
    { intros x Jx; apply Te in Jx; tauto. }
    rewrite E. destruct (IH n1 nmax (log ++ te) I1) as (n2 & log2 & Q1 & Q2 & Q3 & Q4 & Q5 & Q6).
    { left. unfold te in Len; cbn in Len. destruct F as [F|[F _]]; lia. }
    assert (Pr : forall i, is_precious n1 i = is_precious n i) by (intros i; unfold is_precious; rewrite P; reflexivity).
    exists n2, (te ++ log2). split; [rewrite Q1, app_assoc; reflexivity|].
    split; [rewrite eliminate_list_app, E; exact Q2|].
    split; [|split; [|split; [|exact Q6]]].
    + apply NoDup_app'; auto. intros x J1 J2. apply Q4, K in J2. tauto.
    + intros x J. apply in_app_or in J. destruct J as [J|J]; [apply Te in J; tauto|]. apply Q4, K in J. tauto.
    + intros i J. apply in_app_or in J. destruct J as [J|J]; [apply Te in J; tauto|].
      apply Q5 in J. rewrite Pr in J; exact J.
Qed.

Lemma eliminate_all_ok n : Inv n ->
  exists n1 log, eliminate_all_log n = Done (n1, log) /\ eliminate_all n = Done n1 /\ Inv n1 /\
    eliminate_list n log = Some n1 /\ NoDup log /\ incl log (dkeys (node_to_s n)) /\
    (forall i, In i log -> ~ In i (precious n)) /\
    (forall i, In i (dkeys (node_to_s n1)) -> In i (precious n)) /\
    (forall x, dget (locations n1) x = if in_dec Nat.eq_dec x log then None else dget (locations n) x) /\
    next_id n1 = next_id n /\ precious n1 = precious n /\ node_names n1 = node_names n.
Proof.
  intros I.
  destruct (@elim_loop_ok (elim_fuel n) n 3 [] I) as (n1 & log & E & L & Nd & Inc & P1 & P2).
  { left. unfold elim_fuel. lia. }
  destruct (@eliminate_list_ok log n I Nd Inc) as (n2 & E2 & I2 & K & Lo & X & P & Nm & _).
  assert (n2 = n1) by congruence. subst n2.
  exists n1, log. unfold eliminate_all, eliminate_all_log. rewrite E.
  repeat (split; [solve [auto]|]). split; [|split; [|auto]].
  - intros i J Q. apply P1 in J. unfold is_precious in J. destruct (in_dec Nat.eq_dec i (precious n)); [discriminate|contradiction].
  - intros i J. apply P2 in J. unfold is_precious in J. rewrite P in J.
    destruct (in_dec Nat.eq_dec i (precious n)); [assumption|discriminate].
Qed.

(** ** electrical equivalence *)
(** every node of the list is regular at the moment it is eliminated *)
Fixpoint lossless (n : net) (log : list nid) : Prop :=
  match log with
  | [] => True
  | i :: t => regular n i /\ forall n1, eliminate_node n i = Some n1 -> lossless n1 t
  end.

Lemma regular_elim n i : regular n i -> significant (total_cond n i) = true \/ pendant n i.
Proof.
  intros [R|R]; [left|right; exact R]. unfold significant. change threshold with (Q2Qc (1 # 10000000000)).
  destruct (Qclt_le_dec (Q2Qc (1 # 10000000000)) (Qcabs' (total_cond n i))) as [|L]; [reflexivity|].
  exfalso. apply (Qclt_not_le _ _ R L).
Qed.

Lemma node_list_gone n i n1 x : node_gone n i n1 -> In x (node_list n1) -> In x (node_list n) /\ x <> i.
Proof. intros G J. rewrite (ng_list G) in J. apply in_remove in J. exact J. Qed.

Lemma eliminate_list_current l : forall n n1 v, Inv n -> NoDup l -> incl l (dkeys (node_to_s n)) ->
  lossless n l -> eliminate_list n l = Some n1 ->
  (forall i, In i l -> current n v i = 0) ->
  forall x, In x (node_list n1) -> current n1 v x = current n v x.
Proof.
  induction l as [|i l IH]; intros n n1 v I Nd Inc Ls E K x Jx.
  - injection E as <-. reflexivity.
  - inversion Nd; subst. destruct Ls as [R Ls]. cbn in E.
    assert (J : In i (dkeys (node_to_s n))) by (apply Inc; left; reflexivity).
    destruct (eliminate_node_ok _ I J) as (m & Em & G & _). rewrite Em in E.
    assert (C := fun x => @eliminate_current n i m v I J (regular_elim R) Em (K i (or_introl eq_refl)) x).
    assert (Inc' : incl l (dkeys (node_to_s m))).
    { intros y Jy. apply (ng_keys G). split; [intros ->; contradiction|]. apply Inc; right; exact Jy. }
    rewrite (IH m n1 v (ng_inv G) H2 Inc' (Ls m Em) E); auto.
    + apply C. destruct (@eliminate_list_ok l m (ng_inv G) H2 Inc') as (m2 & E2 & I2 & _ & Lo & _).
      assert (m2 = n1) by congruence. subst m2. unfold node_list in *.
      apply dkeys_dget in Jx. destruct Jx as [p P]. rewrite Lo in P.
      destruct (in_dec Nat.eq_dec x l); [discriminate|]. eapply dget_Some_key; eauto.
    + intros j Jj. rewrite C; [apply K; right; exact Jj|]. apply In_keys_loc; [apply G|]. apply Inc'; exact Jj.
Qed.

Lemma eliminate_list_extend l : forall n n1 v, Inv n -> NoDup l -> incl l (dkeys (node_to_s n)) ->
  lossless n l -> eliminate_list n l = Some n1 ->
  exists w, (forall x, ~ In x l -> w x = v x) /\ forall i, In i l -> current n w i = 0.
Proof.
  induction l as [|i l IH]; intros n n1 v I Nd Inc Ls E.
  - exists v. split; [reflexivity|intros i []].
  - inversion Nd; subst. destruct Ls as [R Ls]. cbn in E.
    assert (J : In i (dkeys (node_to_s n))) by (apply Inc; left; reflexivity).
    destruct (eliminate_node_ok _ I J) as (m & Em & G & _). rewrite Em in E.
    assert (Inc' : incl l (dkeys (node_to_s m))).
    { intros y Jy. apply (ng_keys G). split; [intros ->; contradiction|]. apply Inc; right; exact Jy. }
    destruct (IH m n1 v (ng_inv G) H2 Inc' (Ls m Em) E) as (w & W1 & W2).
    destruct (@eliminate_extend n i w I J (regular_elim R)) as [u U].
    exists (vset w i u). split.
    + intros x Nx. unfold vset. destruct (Nat.eq_dec x i) as [->|]; [exfalso; apply Nx; left; reflexivity|].
      apply W1. intros Q; apply Nx; right; exact Q.
    + intros j [<-|Jj]; [exact U|].
      assert (Lj : In j (node_list m)) by (apply In_keys_loc; [apply G|]; apply Inc'; exact Jj).
      rewrite <- (@eliminate_current n i m (vset w i u) I J (regular_elim R) Em U j Lj).
      rewrite <- (W2 j Jj). apply current_ext; [exact Lj|].
      intros y Jy. destruct (node_list_gone _ G Jy) as [_ Ny]. unfold vset. destruct (Nat.eq_dec y i); [congruence|reflexivity].
Qed.

(** ** non negative conductances stay non negative *)
Definition nonneg (n : net) : Prop := forall a b, 0 <= cond_between n a b.
Lemma qsumf_nonneg {A} (f : A -> Qc) l : (forall x, In x l -> 0 <= f x) -> 0 <= qsumf f l.
Proof.
  induction l as [|a l IH]; intros H; [apply Qcle_refl|]. rewrite qsumf_cons.
  replace 0 with (0 + 0) by ring. apply Qcplus_le_compat; [apply H; left; reflexivity|].
  apply IH; intros x J; apply H; right; exact J.
Qed.
Lemma Qc_div_nonneg a b : 0 <= a -> 0 <= b -> 0 <= a / b.
Proof.
  intros A B. unfold Qcdiv. destruct (Qc_eq_dec b 0) as [->|N].
  - replace (a * / 0) with 0; [apply Qcle_refl|]. replace (/ 0) with 0 by reflexivity. ring.
  - replace 0 with (0 * / b) by ring. apply Qcmult_le_compat_r; [exact A|].
    unfold Qcle in *. cbn in *. rewrite Qred_correct. apply Qinv_le_0_compat. exact B.
Qed.
Lemma Qc_mul_nonneg a b : 0 <= a -> 0 <= b -> 0 <= a * b.
Proof. intros A B. replace 0 with (0 * b) by ring. apply Qcmult_le_compat_r; auto. Qed.
Lemma Qc_add_nonneg a b : 0 <= a -> 0 <= b -> 0 <= a + b.
Proof. intros A B. replace 0 with (0 + 0) by ring. apply Qcplus_le_compat; auto. Qed.

Lemma nonneg_eliminate n i n1 : Inv n -> nonneg n -> eliminate_node n i = Some n1 -> nonneg n1.
Proof.
  intros I P E. destruct (in_dec Nat.eq_dec i (dkeys (node_to_s n))) as [J|J].
  2:{ rewrite eliminate_node_absent in E by exact J. injection E as <-. exact P. }
  destruct (eliminate_node_ok _ I J) as (m & Em & G & C). assert (m = n1) by congruence. subst m.
  intros a b. destruct (Nat.eq_dec a i) as [->|Na]; [rewrite (proj1 (ng_cond G b)); apply Qcle_refl|].
  destruct (Nat.eq_dec b i) as [->|Nb]; [rewrite (proj2 (ng_cond G a)); apply Qcle_refl|].
  rewrite C by auto. apply Qc_add_nonneg; [apply P|].
  destruct (significant _); [|apply Qcle_refl]. destruct (Nat.eq_dec a b); [apply Qcle_refl|].
  apply Qc_div_nonneg; [apply Qc_mul_nonneg; apply P|]. apply qsumf_nonneg; intros; apply P.
Qed.
Lemma nonneg_eliminate_list l : forall n n1, Inv n -> NoDup l -> incl l (dkeys (node_to_s n)) ->
  nonneg n -> eliminate_list n l = Some n1 -> nonneg n1.
Proof.
  induction l as [|i l IH]; intros n n1 I Nd Inc P E; [injection E as <-; exact P|].
  inversion Nd; subst. cbn in E.
  assert (J : In i (dkeys (node_to_s n))) by (apply Inc; left; reflexivity).
  destruct (eliminate_node_ok _ I J) as (m & Em & G & _). rewrite Em in E.
  apply (IH m n1 (ng_inv G)); auto; [|eapply nonneg_eliminate; eauto].
  intros y Jy. apply (ng_keys G). split; [intros ->; contradiction|]. apply Inc; right; exact Jy.
Qed.

(** ** histories *)
Lemma step_Inv n o : Inv n -> op_ok n o = true -> exists n1, step n o = Some n1 /\ Inv n1.
Proof.
  intros I OK. destruct o; cbn in *.
  - eexists; split; [reflexivity|]. apply Inv_node_id, I.
  - eexists; split; [reflexivity|]. apply Inv_set_name, I.
  - eexists; split; [reflexivity|]. apply Inv_mark, I.
  - rewrite !andb_true_iff, negb_true_iff, Nat.eqb_neq, !dmem_true in OK. destruct OK as [[A B] N].
    eexists; split; [reflexivity|]. apply Inv_add_cond; auto.
  - destruct (in_dec Nat.eq_dec i (dkeys (node_to_s n))) as [J|J].
    + destruct (eliminate_node_ok _ I J) as (m & Em & G & _). exists m; split; [exact Em|apply G].
    + exists n; split; [apply eliminate_node_absent, J|exact I].
  - destruct (in_dec Nat.eq_dec i (dkeys (node_to_s n))) as [J|J].
    + destruct (remove_node_ok _ I J) as (m & Em & G & _). exists m; split; [exact Em|apply G].
    + exists n; split; [apply remove_node_absent, J|exact I].
  - rewrite andb_true_iff, negb_true_iff, Nat.eqb_neq, dmem_true in OK. destruct OK as [A N].
    destruct (in_dec Nat.eq_dec b (dkeys (node_to_s n))) as [J|J].
    + destruct (@connect_nodes_ok n a b I N A J) as (m & Em & G & _). exists m; auto.
    + exists n; split; [apply connect_nodes_absent, J|exact I].
  - destruct (eliminate_all_ok I) as (m & log & _ & E & Im & _). exists m. rewrite E; auto.
Qed.
Lemma run_Inv l : forall n, Inv n -> run_ok n l -> exists n1, run n l = Some n1 /\ Inv n1.
Proof.
  induction l as [|o l IH]; intros n I OK; [exists n; auto|].
  destruct OK as [O1 O2]. destruct (step_Inv o I O1) as (n1 & S & I1). cbn. rewrite S in *. apply IH; auto.
Qed.
Lemma reachable_Inv n : reachable n -> Inv n.
Proof.
  intros (l & OK & R). destruct (run_Inv l Inv_empty OK) as (n1 & R1 & I). congruence.
Qed.

(** ** check *)
Lemma nsum_zero {A} (f : A -> nat) l : (forall x, In x l -> f x = 0%nat) -> nsum (map f l) = 0%nat.
Proof. induction l as [|a l IH]; intros H; cbn; [reflexivity|]. rewrite H by (left; reflexivity). apply IH; intros; apply H; right; auto. Qed.

Lemma check_zero n : Inv n -> check n = 0%nat.
Proof.
  intros I. unfold check. rewrite !nsum_zero; [reflexivity| | | |].
  - intros [i l] J. apply (In_dget _ _ (wf_stars I)) in J. cbn. apply nsum_zero. intros [r b] Jb.
    cbn. pose proof (star_s I _ _ _ J Jb) as S. unfold dmem. rewrite S. reflexivity.
  - intros [[a b] c] J. apply (In_dget _ _ (wf_s I)) in J.
    pose proof (s_sym I _ _ J) as J'. unfold dmem at 1. rewrite J'. cbn.
    destruct (s_star I _ _ J) as (la & La & Ja). destruct (s_star I _ _ J') as (lb & Lb & Jb).
    unfold dmem. rewrite La, Lb. cbn. unfold star_has. rewrite La, Lb.
    destruct (in_dec eq_dec (c, b) la); [|contradiction]. destruct (in_dec eq_dec (c, a) lb); [|contradiction]. reflexivity.
  - intros [p i] J. apply (In_dget _ _ (wf_nodes I)) in J. apply (i_nl I) in J. cbn. unfold dmem. rewrite J. reflexivity.
  - intros [i p] J. apply (In_dget _ _ (wf_locs I)) in J. apply (i_nl I) in J. cbn. unfold dmem. rewrite J. reflexivity.
Qed.

(** [run_ok] is decidable; used for the concrete examples *)
Fixpoint run_okb (n : net) (l : list op) : bool :=
  match l with
  | [] => true
  | o :: t => op_ok n o && match step n o with Some n1 => run_okb n1 t | None => true end
  end.
Lemma run_okb_ok l : forall n, run_okb n l = true -> run_ok n l.
Proof.
  induction l as [|o l IH]; intros n; cbn; [auto|]. intros H. apply andb_true_iff in H. destruct H as [H1 H2].
  split; [exact H1|]. destruct (step n o); auto.
Qed.
