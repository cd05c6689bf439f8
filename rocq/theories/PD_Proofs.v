(** Reducing statements about all LVS databases to checks of the technology's tables. *)
From Coq Require Import String ZArith Lia.
From Verif Require Import PyBase PyLib QcLra SW_Model TI_Model TI_Spec TI_Proofs LV_Model LV_Spec LV_Proofs RQ_Model RQ_Spec PD_Model PD_Sky130A PD_Ihp PD_Spec.
Local Open Scope string_scope.
Local Open Scope list_scope.

(** ** subsequences *)
Inductive subseq {A} : list A -> list A -> Prop :=
  | sub_nil l : subseq [] l
  | sub_take x k l : subseq k l -> subseq (x :: k) (x :: l)
  | sub_skip x k l : subseq k l -> subseq k (x :: l).
Lemma subseq_In {A} (k l : list A) : subseq k l -> forall x, In x k -> In x l.
Proof. induction 1; simpl; intros y I; [destruct I|intuition|right; auto]. Qed.
Lemma subseq_NoDup {A} (k l : list A) : subseq k l -> NoDup l -> NoDup k.
Proof.
  induction 1; intros N; [constructor| |]; inversion N; subst; [|auto]. constructor; auto. intros I. eapply subseq_In in I; eauto.
Qed.
Lemma subseq_refl {A} (l : list A) : subseq l l.
Proof. induction l; constructor; assumption. Qed.
Lemma subseq_app {A} (a b c d : list A) : subseq a b -> subseq c d -> subseq (a ++ c) (b ++ d).
Proof.
  intros S; revert c d. induction S as [l|x k l S IH|x k l S IH]; intros c d R; simpl; [|constructor; auto|constructor; auto].
  induction l as [|y l IH]; simpl; [exact R|constructor; exact IH].
Qed.
Lemma subseq_flat_map {A B} (f g : A -> list B) l : (forall x, In x l -> f x = g x \/ f x = []) -> subseq (flat_map f l) (flat_map g l).
Proof.
  induction l as [|x l IH]; intros H; simpl; [constructor|]. apply subseq_app; [|apply IH; intros; apply H; right; assumption].
  destruct (H x (or_introl eq_refl)) as [->| ->]; [apply subseq_refl|constructor].
Qed.
Fixpoint pairs_ok {A} (P : A -> A -> bool) (l : list A) : bool := match l with [] => true | x :: r => forallb (P x) r && pairs_ok P r end.
Lemma pairs_ok_sub {A} (P : A -> A -> bool) k l : subseq k l -> pairs_ok P l = true -> pairs_ok P k = true.
Proof.
  induction 1 as [l|x k l S IH|x k l S IH]; simpl; intros H; [reflexivity| |]; apply andb_prop in H; destruct H as [F H]; [|auto].
  rewrite (IH H), Bool.andb_true_r. apply forallb_forall. intros y I. rewrite forallb_forall in F. apply F. eapply subseq_In; eassumption.
Qed.
Lemma pairs_ok_nth {A} (P : A -> A -> bool) l : pairs_ok P l = true -> forall i j a b, (i < j)%nat -> nth_error l i = Some a -> nth_error l j = Some b -> P a b = true.
Proof.
  induction l as [|x l IH]; simpl; intros H i j a b L Ei Ej; [destruct i; discriminate|]. apply andb_prop in H. destruct H as [F H].
  destruct j; [lia|]. simpl in Ej. destruct i; simpl in Ei.
  - injection Ei as <-. rewrite forallb_forall in F. apply F. eapply nth_error_In, Ej.
  - eapply IH; [exact H| |exact Ei|exact Ej]. lia.
Qed.
Lemma distinct_same {A} `{EqDec A} (l : list A) : NoDup l -> distinct l = l.
Proof.
  induction l as [|x l IH]; intros N; simpl; [reflexivity|]. inversion N as [|? ? Nin Nd]; subst. rewrite IH by assumption. f_equal.
  clear - Nin. induction l as [|y l IH]; simpl; [reflexivity|].
  rewrite (proj2 (eqb_false y x)); [|intros ->; apply Nin; left; reflexivity]. simpl. f_equal. apply IH. intros I; apply Nin; right; exact I.
Qed.

(** ** the computed layers behind an LVS layer *)
Lemma info_In t n i : info_of t n = Some i -> In i (computed t) /\ cl_name i = n.
Proof. intros E. apply last_such_In in E. destruct E as [I P]. apply eqb_eq in P. auto. Qed.
Lemma info_all t (P : clayer -> bool) : forallb (fun i => match info_of t (cl_name i) with Some j => P j | None => true end) (computed t) = true ->
  forall n i, info_of t n = Some i -> P i = true.
Proof.
  intros F n i E. destruct (info_In _ _ _ E) as [I N]. rewrite forallb_forall in F. specialize (F i I). rewrite N, E in F. exact F.
Qed.
Lemma source_info t b db q x : In x (sources t b db q) ->
  exists l i, In l (db_layers db) /\ has_shapes db l = true /\ info_of t (lv_name l) = Some i /\ hidden b i = false /\ cl_pair i = q /\
    x_name x = lv_name l /\ x_shapes x = db_shapes db (lv_index l).
Proof.
  unfold sources. intros I. apply in_map_iff in I. destruct I as ([k l] & <- & I). apply filter_In in I. destruct I as [I B].
  unfold enumerate in I. apply in_combine_r in I. simpl in *. unfold belongs in B. apply andb_prop in B. destruct B as [Hs B].
  destruct (info_of t (lv_name l)) as [i|] eqn:E; [|discriminate]. apply andb_prop in B. destruct B as [Hd P]. apply eqb_eq in P.
  exists l, i. repeat split; auto. destruct (hidden b i); [discriminate|reflexivity].
Qed.
Lemma sources_none t b db q : (forall n i, info_of t n = Some i -> hidden b i = false -> cl_pair i <> q) -> sources t b db q = [].
Proof.
  intros H. destruct (sources t b db q) as [|x r] eqn:S; [reflexivity|]. exfalso.
  destruct (source_info t b db q x) as (l & i & _ & _ & E & Hd & P & _); [rewrite S; left; reflexivity|]. exact (H _ _ E Hd P).
Qed.

(** ** C72 *)
Definition possible_pair (t : tech) (b : bool) (p : gds) : bool := existsb (fun i => negb (hidden b i) && eqb (cl_pair i) p) (computed t).
Definition possible_names (t : tech) (b : bool) (metals : list string) : list string :=
  "VSUBS" :: flat_map (fun m => match canonical_metal t m, pair_of t m with
                                | Some cn, Some p => if possible_pair t b p then [cn] else []
                                | _, _ => [] end) metals.
Lemma present_sub t b db metals : db_wf db ->
  subseq ("VSUBS" :: map fst (present t (shapes_of_layer t b db) metals)) (possible_names t b metals).
Proof.
  intros wf. unfold possible_names. constructor. unfold present. rewrite flat_map_concat_map, concat_map, map_map, <- flat_map_concat_map.
  apply subseq_flat_map. intros m _. unfold metal_shapes. destruct (canonical_metal t m) as [cn|] eqn:C; [|auto].
  unfold canonical_metal in C. destruct (pair_of t m) as [p|]; [|discriminate].
  rewrite (layer_shapes_eq t b db wf). destruct (sources t b db p) as [|x r] eqn:S; [auto|]. left.
  destruct (source_info t b db p x) as (l & i & _ & _ & E & Hd & P & _); [rewrite S; left; reflexivity|].
  assert (X : possible_pair t b p = true).
  { apply existsb_exists. exists i. split; [apply (info_In _ _ _ E)|]. rewrite Hd, P, eqb_refl. reflexivity. }
  rewrite X. reflexivity.
Qed.
(** no name twice *)
Definition nodup_b (l : list string) : bool := pairs_ok (fun a b => negb (eqb a b)) l.
Lemma nodup_b_ok l : nodup_b l = true -> NoDup l.
Proof.
  unfold nodup_b. induction l as [|x l IH]; simpl; intros H; constructor; apply andb_prop in H; destruct H as [F H]; [|auto].
  intros I. rewrite forallb_forall in F. specialize (F x I). rewrite eqb_refl in F. discriminate.
Qed.
