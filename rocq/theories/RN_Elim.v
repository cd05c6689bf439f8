(** eliminate_node: star-mesh transformation and its electrical meaning. *)
From Coq Require Import String Permutation.
From Verif Require Import PyBase RN_Model RN_Spec RN_Inv RN_Ops.
Set Implicit Arguments.
Local Open Scope Qc_scope.
Arguments add_cond : simpl never.

(** ** sums over supports *)
Section Support.
Context {A : Type} `{EqDec A}.
Lemma qsumf_support (f : A -> Qc) l m : NoDup l -> NoDup m -> incl m l ->
  (forall x, In x l -> ~ In x m -> f x = 0) -> qsumf f l = qsumf f m.
Proof.
  revert l; induction m as [|a m IH]; intros l Nl Nm Im Z.
  - apply qsumf_zero; intros x Ix; apply Z; auto.
  - assert (Ia : In a l) by (apply Im; left; reflexivity).
    destruct (in_split _ _ Ia) as (l1 & l2 & ->).
    pose proof (Permutation_middle l1 l2 a) as P.
    rewrite <- (qsumf_perm f P), !qsumf_cons. f_equal.
    assert (Nl' : NoDup (a :: l1 ++ l2)) by (eapply Permutation_NoDup; [symmetry; exact P|exact Nl]).
    inversion Nl'; subst. inversion Nm; subst. apply IH; auto.
    + intros x Ix. assert (Ix' : In x (l1 ++ a :: l2)) by (apply Im; right; exact Ix).
      apply (Permutation_in _ (Permutation_sym P)) in Ix'. destruct Ix' as [->|Ix']; [contradiction|exact Ix'].
    + intros x Ix Nx. apply Z; [apply (Permutation_in _ P); right; exact Ix|].
      intros [->|Q]; contradiction.
Qed.
End Support.
Lemma qsumf_remove (f : nat -> Qc) l i : NoDup l -> In i l ->
  qsumf f l = f i + qsumf f (remove Nat.eq_dec i l).
Proof.
  induction l as [|a l IH]; intros N I; [destruct I|]. inversion N; subst. simpl remove. rewrite qsumf_cons.
  destruct (Nat.eq_dec i a) as [->|Ne].
  - rewrite notin_remove by assumption. reflexivity.
  - destruct I as [->|I]; [congruence|]. rewrite qsumf_cons, IH by assumption. ring.
Qed.

(** ** mesh *)
Section Mesh.
Variable i : nid.
Variable sum : Qc.

(** state of the network while the resistors of [i]'s star are being meshed *)
Record meshing (n0 : net) (star : list (ref * nid)) (n : net) : Prop := {
  ms_inv : Inv n;
  ms_star : dget (node_to_s n) i = Some star;
  ms_frame : same_frame n0 n;
  ms_keys : forall x, In x (dkeys (node_to_s n)) <-> In x (dkeys (node_to_s n0));
  ms_len : List.length (node_to_s n) = List.length (node_to_s n0);
  ms_gi : forall x, cond_between n i x = cond_between n0 i x }.

Lemma star_val n l e : Inv n -> dget (node_to_s n) i = Some l -> In e l ->
  hget (heap n) (fst e) = cond_between n i (snd e).
Proof.
  intros I E J. destruct e as [r o]. pose proof (star_s I _ _ _ E J) as S.
  unfold cond_between; cbn. rewrite S; reflexivity.
Qed.
Lemma star_nb n l e : Inv n -> dget (node_to_s n) i = Some l -> In e l ->
  snd e <> i /\ In (snd e) (dkeys (node_to_s n)) /\ In (snd e) (node_list n).
Proof.
  intros I E J. destruct e as [r o]. pose proof (star_s I _ _ _ E J) as S. cbn.
  split; [|split].
  - intros ->. pose proof (s_irr I i). congruence.
  - apply (s_sym I) in S. destruct (s_star I _ _ S) as (l' & L & _). eapply dget_Some_key; eauto.
  - apply (s_loc _ _ I) in S. tauto.
Qed.

Lemma meshing_add n0 star n e1 e2 : meshing n0 star n -> In e1 star -> In e2 star ->
  snd e1 <> snd e2 ->
  let n' := add_cond n (snd e1) (snd e2) (hget (heap n) (fst e1) * hget (heap n) (fst e2) / sum) in
  meshing n0 star n' /\
  forall x y, cond_between n' x y = cond_between n x y +
    (if same_pair x y (snd e1) (snd e2) then cond_between n0 i (snd e1) * cond_between n0 i (snd e2) / sum else 0).
Proof.
  intros M J1 J2 N. destruct M as [I E F K KL G].
  destruct (star_nb _ I E J1) as (A1 & A2 & A3). destruct (star_nb _ I E J2) as (B1 & B2 & B3).
  rewrite (star_val _ I E J1), (star_val _ I E J2), !G. intros n'.
  assert (C : forall x y, cond_between n' x y = cond_between n x y +
    (if same_pair x y (snd e1) (snd e2) then cond_between n0 i (snd e1) * cond_between n0 i (snd e2) / sum else 0)).
  { intros x y; apply cond_add_cond; auto. }
  split; [|exact C]. constructor.
  - apply Inv_add_cond; auto.
  - unfold n'. rewrite add_cond_star_other by congruence. exact E.
  - eapply same_frame_trans; [exact F|apply add_cond_frame].
  - intros x. rewrite <- K. split.
    + intros J. apply add_cond_star_keys in J. destruct J as [J|[->| ->]]; auto.
    + apply add_cond_star_keys_mono.
  - rewrite <- KL. unfold n', add_cond, add_cond_ref; cbn. destruct (dget (s n) _); cbn; [reflexivity|].
    unfold star_append. destruct (dkeys_dget _ _ A2) as [l1 L1]. rewrite L1.
    rewrite dget_dset. destruct (dkeys_dget _ _ B2) as [l2 L2].
    destruct (eq_dec (snd e2) (snd e1)); [congruence|]. rewrite L2.
    rewrite !length_dset_present; auto. rewrite dkeys_dset_in; auto.
  - intros x. rewrite C. replace (same_pair i x (snd e1) (snd e2)) with false; [rewrite G; ring|].
    symmetry. apply not_true_iff_false. rewrite same_pair_spec. intros [[? _]|[? _]]; congruence.
Qed.

Lemma mesh_inner_ok n0 star rest : forall n e1, meshing n0 star n -> In e1 star ->
  incl rest star -> ~ In (snd e1) (map snd rest) ->
  meshing n0 star (mesh_inner n sum e1 rest) /\
  forall x y, cond_between (mesh_inner n sum e1 rest) x y = cond_between n x y +
    qsumf (fun e2 => if same_pair x y (snd e1) (snd e2)
                     then cond_between n0 i (snd e1) * cond_between n0 i (snd e2) / sum else 0) rest.
Proof.
  induction rest as [|e2 t IH]; intros n e1 M J1 Inc Nd.
  - split; [exact M|]. intros; rewrite qsumf_nil; cbn; ring.
  - cbn [mesh_inner].
    assert (N12 : snd e1 <> snd e2) by (intros Q; apply Nd; left; auto).
    destruct (@meshing_add _ _ _ _ _ M J1 (Inc e2 (or_introl eq_refl)) N12) as [M' C'].
    destruct (IH _ e1 M' J1) as [M2 C2].
    { intros x Jx; apply Inc; right; exact Jx. } { intros Q; apply Nd; right; exact Q. }
    split; [exact M2|]. intros x y. rewrite C2, C', qsumf_cons. ring.
Qed.

(** sum over the pairs of a star *)
Fixpoint pairsum (n0 : net) (x y : nid) (star : list (ref * nid)) : Qc :=
  match star with
  | [] => 0
  | e1 :: t => qsumf (fun e2 => if same_pair x y (snd e1) (snd e2)
                 then cond_between n0 i (snd e1) * cond_between n0 i (snd e2) / sum else 0) t
               + pairsum n0 x y t
  end.
Lemma mesh_ok n0 star rest : forall n, meshing n0 star n -> incl rest star -> NoDup (map snd rest) ->
  meshing n0 star (mesh n sum rest) /\
  forall x y, cond_between (mesh n sum rest) x y = cond_between n x y + pairsum n0 x y rest.
Proof.
  induction rest as [|e1 t IH]; intros n M Inc Nd.
  - split; [exact M|]. intros; cbn; ring.
  - cbn [mesh pairsum]. inversion Nd; subst.
    destruct (@mesh_inner_ok n0 star t n e1 M) as [M1 C1]; auto.
    { apply Inc; left; reflexivity. } { intros x Jx; apply Inc; right; exact Jx. }
    destruct (IH _ M1) as [M2 C2]; auto. { intros x Jx; apply Inc; right; exact Jx. }
    split; [exact M2|]. intros x y. rewrite C2, C1. ring.
Qed.

Lemma pairsum_val n0 x y star : NoDup (map snd star) ->
  pairsum n0 x y star =
  if Nat.eq_dec x y then 0
  else if in_dec Nat.eq_dec x (map snd star) then
    if in_dec Nat.eq_dec y (map snd star) then cond_between n0 i x * cond_between n0 i y / sum else 0
  else 0.
Proof.
  induction star as [|[r a] t IH]; intros Nd; [cbn; destruct (Nat.eq_dec x y); reflexivity|].
  cbn [pairsum snd map] in *. inversion Nd as [|? ? Na Nt]; subst. rewrite IH by assumption. clear IH.
  assert (Q : qsumf (fun e2 => if same_pair x y a (snd e2)
                 then cond_between n0 i a * cond_between n0 i (snd e2) / sum else 0) t =
     qsumf (fun b => if same_pair x y a b then cond_between n0 i x * cond_between n0 i y / sum else 0) (map snd t)).
  { rewrite qsumf_map. apply qsumf_ext. intros e _. destruct (same_pair x y a (snd e)) eqn:SP; [|reflexivity].
    apply same_pair_spec in SP. destruct SP as [[-> ->]|[-> ->]]; unfold Qcdiv; ring. }
  rewrite Q. clear Q. set (h := cond_between n0 i x * cond_between n0 i y / sum) in *. clearbody h.
  set (m := map snd t) in *. clearbody m.
  assert (Z : forall b, x <> a \/ y <> b -> x <> b \/ y <> a -> same_pair x y a b = false).
  { intros b H1 H2. apply not_true_iff_false. rewrite same_pair_spec. tauto. }
  destruct (Nat.eq_dec x y) as [->|Nxy].
  { rewrite qsumf_zero; [ring|]. intros b Jb.
    assert (b <> a) by (intros ->; contradiction).
    rewrite Z; [reflexivity| |]; destruct (Nat.eq_dec y a) as [->|]; auto. }
  destruct (Nat.eq_dec x a) as [->|Nxa].
  - destruct (in_dec Nat.eq_dec a m) as [|_]; [contradiction|].
    destruct (in_dec Nat.eq_dec a (a :: m)) as [_|N]; [|exfalso; apply N; left; reflexivity].
    destruct (in_dec Nat.eq_dec y (a :: m)) as [J|N].
    + destruct J as [J|J]; [congruence|].
      rewrite (@qsumf_single _ _ _ m y); auto.
      * replace (same_pair a y a y) with true by (symmetry; apply same_pair_spec; auto). ring.
      * intros b Jb Nb. rewrite Z; auto.
    + rewrite qsumf_zero; [ring|]. intros b Jb. rewrite Z; auto.
      right; intros ->. apply N; right; exact Jb.
  - destruct (Nat.eq_dec y a) as [->|Nya].
    + destruct (in_dec Nat.eq_dec a m) as [|_]; [contradiction|].
      destruct (in_dec Nat.eq_dec a (a :: m)) as [_|N]; [|exfalso; apply N; left; reflexivity].
      destruct (in_dec Nat.eq_dec x (a :: m)) as [J|N].
      * destruct J as [J|J]; [congruence|].
        rewrite (@qsumf_single _ _ _ m x); auto.
        -- replace (same_pair x a a x) with true by (symmetry; apply same_pair_spec; auto).
           destruct (in_dec Nat.eq_dec x m); [ring|contradiction].
        -- intros b Jb Nb. rewrite Z; auto.
      * rewrite qsumf_zero; [destruct (in_dec Nat.eq_dec x m); ring|]. intros b Jb. rewrite Z; auto.
        left; intros ->. apply N; right; exact Jb.
    + rewrite qsumf_zero.
      * destruct (in_dec Nat.eq_dec x m), (in_dec Nat.eq_dec x (a :: m)) as [J1|J1],
          (in_dec Nat.eq_dec y m), (in_dec Nat.eq_dec y (a :: m)) as [J2|J2]; try ring; exfalso;
        try (destruct J1; [congruence|contradiction]); try (destruct J2; [congruence|contradiction]);
        try (apply J1; right; assumption); try (apply J2; right; assumption).
      * intros b Jb. rewrite Z; auto.
Qed.
End Mesh.

Lemma fold_star_sum h l acc :
  fold_left (fun acc (e : ref * nid) => acc + hget h (fst e)) l acc = acc + qsumf (fun e => hget h (fst e)) l.
Proof.
  revert acc; induction l as [|e t IH]; intros acc; cbn [fold_left]; [rewrite qsumf_nil; ring|].
  rewrite IH, qsumf_cons; ring.
Qed.

Lemma star_incl n i star : Inv n -> dget (node_to_s n) i = Some star -> incl (map snd star) (node_list n).
Proof.
  intros I E x J. apply in_map_iff in J. destruct J as (e & <- & J).
  apply (star_nb _ _ I E J).
Qed.
Lemma cond_not_star n i star x : Inv n -> dget (node_to_s n) i = Some star ->
  ~ In x (map snd star) -> cond_between n i x = 0.
Proof.
  intros I E N. unfold cond_between. destruct (dget (s n) (i, x)) as [r|] eqn:S; [|reflexivity].
  destruct (s_star I _ _ S) as (l & L & J). rewrite E in L; injection L as <-.
  apply (in_map snd) in J. contradiction.
Qed.
Lemma NoDup_node_list n : Inv n -> NoDup (node_list n).
Proof. intros I. apply I. Qed.

Lemma star_sum_total n i star : Inv n -> dget (node_to_s n) i = Some star ->
  star_sum n star = total_cond n i.
Proof.
  intros I E. unfold star_sum, total_cond. rewrite fold_star_sum.
  rewrite (qsumf_ext _ (fun e => cond_between n i (snd e))).
  2:{ intros e J. apply (star_val _ _ I E J). }
  rewrite <- (qsumf_map (@snd ref nid) (fun b => cond_between n i b) star).
  rewrite (qsumf_support (fun b => cond_between n i b) (l := node_list n) (m := map snd star)).
  - ring.
  - apply NoDup_node_list, I.
  - eapply star_nd; eauto.
  - eapply star_incl; eauto.
  - intros x _ N. eapply cond_not_star; eauto.
Qed.

Lemma eliminate_node_ok n i : Inv n -> In i (dkeys (node_to_s n)) ->
  exists n1, eliminate_node n i = Some n1 /\ node_gone n i n1 /\
    forall x y, x <> i -> y <> i ->
      cond_between n1 x y = cond_between n x y +
        (if significant (total_cond n i) then
           if Nat.eq_dec x y then 0 else cond_between n i x * cond_between n i y / total_cond n i
         else 0).
Proof.
  intros I J. destruct (dkeys_dget _ _ J) as [star E]. unfold eliminate_node; rewrite E.
  rewrite (star_sum_total _ I E).
  destruct (significant (total_cond n i)) eqn:Sg.
  - destruct (@mesh_ok i (total_cond n i) n star star n) as [M C].
    + constructor; auto using same_frame_refl; reflexivity.
    + apply incl_refl.
    + eapply star_nd; eauto.
    + destruct (@remove_node_ok (mesh n (total_cond n i) star) i (ms_inv M)) as (n1 & R & G & H & C1).
      { apply (ms_keys M); exact J. }
      exists n1. split; [exact R|]. split.
      * destruct G; constructor; auto.
        -- intros x; rewrite ng_locs, (sf_locs (ms_frame M)); reflexivity.
        -- rewrite ng_list. unfold node_list; rewrite (sf_locs (ms_frame M)); reflexivity.
        -- rewrite ng_next. apply (ms_frame M).
        -- rewrite ng_prec. apply (ms_frame M).
        -- rewrite ng_names. apply (ms_frame M).
        -- intros x; rewrite ng_keys, (ms_keys M); reflexivity.
      * intros x y Nx Ny. rewrite C1, C, pairsum_val by (auto; eapply star_nd; eauto). f_equal.
        destruct (Nat.eq_dec x y) as [|Nxy]; [reflexivity|].
        destruct (in_dec Nat.eq_dec x (map snd star)) as [|Z].
        -- destruct (in_dec Nat.eq_dec y (map snd star)) as [|Z]; [reflexivity|].
           rewrite (cond_not_star _ _ I E Z). unfold Qcdiv; ring.
        -- rewrite (cond_not_star _ _ I E Z). unfold Qcdiv; ring.
  - destruct (@remove_node_ok n i I J) as (n1 & R & G & H & C).
    exists n1. split; [exact R|]. split; [exact G|]. intros x y Nx Ny. rewrite C by auto. ring.
Qed.
Lemma eliminate_node_absent n i : ~ In i (dkeys (node_to_s n)) -> eliminate_node n i = Some n.
Proof. intros N. unfold eliminate_node. apply dget_None in N. rewrite N; reflexivity. Qed.

(** ** Kirchhoff *)
Lemma significant_nz x : significant x = true -> x <> 0.
Proof.
  intros S ->. vm_compute in S. discriminate.
Qed.


Lemma In_keys_loc n i : Inv n -> In i (dkeys (node_to_s n)) -> In i (node_list n).
Proof. intros I J. destruct (dkeys_dget _ _ J) as [l L]. destruct (star_loc I _ L) as [p P]. eapply dget_Some_key; eauto. Qed.

Lemma current_split n v x i : Inv n -> In i (node_list n) ->
  current n v x = cond_between n x i * (v x - v i)
   + qsumf (fun b => cond_between n x b * (v x - v b)) (remove Nat.eq_dec i (node_list n)).
Proof. intros I J. exact (qsumf_remove (fun b => cond_between n x b * (v x - v b)) i (NoDup_node_list I) J). Qed.

(** the node is removed without loss when the star-mesh step is done or there is
    nothing to mesh *)
Lemma eliminate_current n i n1 v : Inv n -> In i (dkeys (node_to_s n)) ->
  significant (total_cond n i) = true \/ pendant n i ->
  eliminate_node n i = Some n1 -> current n v i = 0 ->
  forall x, In x (node_list n1) -> current n1 v x = current n v x.
Proof.
  intros I J D E KCL x Jx. destruct (eliminate_node_ok _ I J) as (n2 & E2 & G & C).
  assert (n2 = n1) by congruence. subst n2.
  assert (Li : In i (node_list n)) by (apply In_keys_loc; auto).
  rewrite (ng_list G) in Jx. apply in_remove in Jx. destruct Jx as [Lx Nx].
  rewrite (current_split v x _ I Li). unfold current. rewrite (ng_list G).
  set (L' := remove Nat.eq_dec i (node_list n)) in *.
  assert (SI : cond_between n i i = 0) by (apply cond_irr; auto).
  destruct (significant (total_cond n i)) eqn:Sg.
  - set (S := total_cond n i) in *.
    assert (SN : S <> 0) by (apply significant_nz; auto).
    assert (ES : S = qsumf (cond_between n i) L').
    { unfold S, total_cond. rewrite (qsumf_remove _ i (NoDup_node_list I) Li). cbn beta. rewrite SI. fold L'. apply Qcplus_0_l. }
    assert (KCL' : v i * S = qsumf (fun b => cond_between n i b * v b) L').
    { rewrite (current_split v i _ I Li), SI in KCL. fold L' in KCL.
      rewrite (qsumf_ext _ (fun b => v i * cond_between n i b - cond_between n i b * v b)) in KCL
        by (intros; ring).
      rewrite qsumf_minus, qsumf_scal, <- ES in KCL.
      rewrite Qcplus_comm in KCL.
      set (q := qsumf (fun x0 => cond_between n i x0 * v x0) L') in *.
      assert (v i * S - q = 0) by (rewrite <- KCL; ring).
      replace (v i * S) with ((v i * S - q) + q) by ring. rewrite H; ring. }
    rewrite (qsumf_ext _ (fun b => cond_between n x b * (v x - v b)
        + (cond_between n i x / S) * (v x * cond_between n i b - cond_between n i b * v b))).
    2:{ intros b Jb. apply in_remove in Jb. destruct Jb as [Lb Nb]. rewrite C by auto.
        destruct (Nat.eq_dec x b) as [->|]; [ring|]. unfold Qcdiv; ring. }
    rewrite qsumf_plus, qsumf_scal, qsumf_minus, qsumf_scal, <- ES, <- KCL'.
    rewrite (cond_sym x i I). field. exact SN.
  - destruct D as [D|D]; [discriminate|].
    rewrite (qsumf_ext _ (fun b => cond_between n x b * (v x - v b))).
    2:{ intros b Jb. apply in_remove in Jb. destruct Jb as [Lb Nb]. rewrite C by auto. ring. }
    assert (Z : cond_between n x i * (v x - v i) = 0); [|rewrite Z; ring].
    rewrite (cond_sym x i I).
    rewrite (current_split v i _ I Li), SI in KCL. fold L' in KCL.
    destruct (eq_dec (cond_between n i x) 0) as [Zx|Nz]; [rewrite Zx; ring|].
    rewrite (@qsumf_single _ _ _ L' x) in KCL.
    + replace (cond_between n i x * (v x - v i)) with (- (0 * (v i - v i) + cond_between n i x * (v i - v x))) by ring.
      rewrite KCL. ring.
    + unfold L'. clear -I. pose proof (NoDup_node_list I) as N.
      induction (node_list n) as [|a l IH]; [constructor|]. inversion N; subst. simpl.
      destruct (Nat.eq_dec i a); [auto|]. constructor; [|auto]. intros J; apply in_remove in J; tauto.
    + apply in_in_remove; auto.
    + intros b Jb Nb. destruct (eq_dec (cond_between n i b) 0) as [Zb|Nzb]; [rewrite Zb; ring|].
      exfalso. apply Nb. apply D; assumption.
Qed.

Definition vset (v : nid -> Qc) (i : nid) (u : Qc) : nid -> Qc := fun x => if Nat.eq_dec x i then u else v x.

(** the voltage of the removed node that satisfies Kirchhoff's law there *)
Lemma eliminate_extend n i v : Inv n -> In i (dkeys (node_to_s n)) ->
  significant (total_cond n i) = true \/ pendant n i ->
  exists u, current n (vset v i u) i = 0.
Proof.
  intros I J D.
  assert (Li : In i (node_list n)) by (apply In_keys_loc; auto).
  assert (SI : cond_between n i i = 0) by (apply cond_irr; auto).
  set (L' := remove Nat.eq_dec i (node_list n)).
  assert (EQ : forall u, current n (vset v i u) i = qsumf (fun b => cond_between n i b * (u - v b)) L').
  { intros u. rewrite (current_split (vset v i u) i _ I Li), SI. fold L'.
    rewrite (qsumf_ext _ (fun b => cond_between n i b * (u - v b))).
    - ring.
    - intros b Jb. apply in_remove in Jb. unfold vset. destruct (Nat.eq_dec i i); [|congruence].
      destruct (Nat.eq_dec b i); [tauto|reflexivity]. }
  destruct (significant (total_cond n i)) eqn:Sg.
  - assert (SN : total_cond n i <> 0) by (apply significant_nz; auto).
    assert (ES : total_cond n i = qsumf (cond_between n i) L').
    { unfold total_cond. rewrite (qsumf_remove _ i (NoDup_node_list I) Li). cbn beta. rewrite SI. fold L'. apply Qcplus_0_l. }
    exists (qsumf (fun b => cond_between n i b * v b) L' / total_cond n i). rewrite EQ.
    set (u := _ / _).
    rewrite (qsumf_ext _ (fun b => u * cond_between n i b - cond_between n i b * v b)) by (intros; ring).
    rewrite qsumf_minus, qsumf_scal, <- ES. unfold u. field. exact SN.
  - destruct D as [D|D]; [discriminate|].
    assert (X : (exists b, cond_between n i b <> 0) \/ forall b, In b L' -> cond_between n i b = 0).
    { clear. induction L' as [|b l IH]; [right; intros b []|].
      destruct (eq_dec (cond_between n i b) 0) as [Z|N]; [|left; exists b; exact N].
      destruct IH as [IH|IH]; [left; exact IH|]. right; intros c [<-|J]; auto. }
    destruct X as [[b0 N0]|Z].
    + exists (v b0). rewrite EQ. apply qsumf_zero. intros b Jb.
      destruct (eq_dec (cond_between n i b) 0) as [Zb|Nzb]; [rewrite Zb; ring|].
      rewrite (D b b0 Nzb N0). ring.
    + exists 0. rewrite EQ. apply qsumf_zero. intros b Jb. rewrite (Z b Jb). ring.
Qed.

Lemma current_ext n v w x : In x (node_list n) -> agree_on n v w -> current n v x = current n w x.
Proof. intros J A. unfold current. apply qsumf_ext. intros b Jb. rewrite (A x J), (A b Jb). reflexivity. Qed.
