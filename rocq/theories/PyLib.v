(** More building blocks: strings with Python's ordering, stable sorting,
    defaultdict accumulation. *)
From Coq Require Import String Ascii.
From Coq Require Import Permutation.
From Verif Require Import PyBase.
Set Implicit Arguments.
Local Open Scope Qc_scope.

Lemma eqb_eq {A} `{EqDec A} (x y : A) : eqb x y = true -> x = y.
Proof. apply eqb_true. Qed.
Lemma eqb_neq {A} `{EqDec A} (x y : A) : eqb x y = false -> x <> y.
Proof. apply eqb_false. Qed.
#[global] Arguments qsumf : simpl never.
#[export] Instance EqDec_string : EqDec string := string_dec.
#[export] Instance EqDec_ascii : EqDec ascii := ascii_dec.

(** Python's [a < b] on str.  Strings are byte strings; for UTF-8 the byte order is the
    code point order. *)
Definition strlt (a b : string) : bool := String.ltb a b.

Lemma strlt_compare a b : strlt a b = true <-> String.compare a b = Lt.
Proof. unfold strlt, String.ltb. destruct (String.compare a b); split; congruence. Qed.
Lemma compare_refl a : String.compare a a = Eq.
Proof. pose proof (String.compare_antisym a a) as E. destruct (String.compare a a); cbn in E; congruence. Qed.
Lemma strlt_irrefl a : strlt a a = false.
Proof. unfold strlt, String.ltb. rewrite compare_refl. reflexivity. Qed.
Lemma strlt_asym a b : strlt a b = true -> strlt b a = false.
Proof.
  rewrite strlt_compare. intros E. unfold strlt, String.ltb. rewrite String.compare_antisym, E. reflexivity.
Qed.
Lemma strlt_total a b : strlt a b = true \/ a = b \/ strlt b a = true.
Proof.
  rewrite !strlt_compare. rewrite (String.compare_antisym b a).
  destruct (String.compare a b) eqn:E; cbn; auto. right; left. apply String.compare_eq_iff, E.
Qed.
Lemma ascii_compare_trans a b c : Ascii.compare a b = Lt -> Ascii.compare b c = Lt -> Ascii.compare a c = Lt.
Proof. unfold Ascii.compare. rewrite !N.compare_lt_iff. lia. Qed.
Lemma ascii_compare_refl a : Ascii.compare a a = Eq.
Proof. unfold Ascii.compare. apply N.compare_refl. Qed.
Lemma strlt_trans a : forall b c, strlt a b = true -> strlt b c = true -> strlt a c = true.
Proof.
  induction a as [|x a IH]; intros [|y b] [|z c]; rewrite ?strlt_compare; cbn; try congruence.
  destruct (Ascii.compare x y) eqn:E1; try congruence; destruct (Ascii.compare y z) eqn:E2; try congruence;
  try apply compare_eq_iff in E1; try apply compare_eq_iff in E2; subst; intros H1 H2.
  - rewrite ascii_compare_refl. apply strlt_compare. eapply IH; apply strlt_compare; eauto.
  - rewrite E2. reflexivity.
  - rewrite E1. reflexivity.
  - rewrite (ascii_compare_trans _ _ _ E1 E2). reflexivity.
Qed.

(** str.casefold() / lower(), restricted to ASCII letters *)
Definition lower_ascii (c : ascii) : ascii :=
  let n := nat_of_ascii c in
  if Nat.leb 65 n && Nat.leb n 90 then ascii_of_nat (n + 32) else c.
Fixpoint casefold (s : string) : string :=
  match s with EmptyString => EmptyString | String c t => String (lower_ascii c) (casefold t) end.

(** ** sorted(l): stable, only uses [<] *)
Section Sort.
Context {A : Type} (lt : A -> A -> bool).
Fixpoint insert (x : A) (l : list A) : list A :=
  match l with
  | [] => [x]
  | y :: t => if lt y x then y :: insert x t else x :: l
  end.
Fixpoint py_sorted (l : list A) : list A :=
  match l with [] => [] | x :: t => insert x (py_sorted t) end.
Lemma insert_perm x l : Permutation (x :: l) (insert x l).
Proof.
  induction l as [|y t IH]; cbn; [reflexivity|]. destruct (lt y x); [|reflexivity].
  rewrite perm_swap. constructor. exact IH.
Qed.
Lemma py_sorted_perm l : Permutation l (py_sorted l).
Proof. induction l as [|x t IH]; cbn; [constructor|]. rewrite <- insert_perm. constructor. exact IH. Qed.
Lemma In_py_sorted x l : In x (py_sorted l) <-> In x l.
Proof. split; apply Permutation_in; [symmetry|]; apply py_sorted_perm. Qed.
End Sort.

(** ** defaultdict(float): [d[k] += v] *)
Section Acc.
Context {K : Type} `{EqDec K}.
Definition dgetd (d : dict K Qc) (k : K) : Qc := match dget d k with Some v => v | None => 0 end.
Definition dadd (d : dict K Qc) (k : K) (v : Qc) : dict K Qc := dset d k (dgetd d k + v).
Definition accum (l : list (K * Qc)) (d : dict K Qc) : dict K Qc :=
  fold_left (fun d e => dadd d (fst e) (snd e)) l d.

(** the total of the entries whose key satisfies [P] *)
Definition ksum (P : K -> bool) (l : list (K * Qc)) : Qc := qsumf (fun e => if P (fst e) then snd e else 0) l.

Lemma ksum_nil P : ksum P [] = 0.
Proof. reflexivity. Qed.
Lemma ksum_app P l m : ksum P (l ++ m) = ksum P l + ksum P m.
Proof. apply qsumf_app. Qed.
Lemma ksum_cons P e l : ksum P (e :: l) = (if P (fst e) then snd e else 0) + ksum P l.
Proof. apply qsumf_cons. Qed.
Lemma ksum_dset P d k v : ksum P (dset d k v) = ksum P d + (if P k then v - dgetd d k else 0).
Proof.
  unfold ksum, dgetd. induction d as [|[k' v'] t IH]; cbn [dset dget].
  - rewrite qsumf_cons, !qsumf_nil. cbn. destruct (P k); ring.
  - destruct (eq_dec k k') as [->|N]; rewrite !qsumf_cons; cbn.
    + destruct (P k'); ring.
    + rewrite IH. destruct (P k), (P k'); ring.
Qed.
Lemma ksum_dadd P d k v : ksum P (dadd d k v) = ksum P d + (if P k then v else 0).
Proof. unfold dadd. rewrite ksum_dset. destruct (P k); ring. Qed.
Lemma ksum_accum P l : forall d, ksum P (accum l d) = ksum P d + ksum P l.
Proof.
  induction l as [|[k v] l IH]; intros d; cbn [accum fold_left].
  - unfold ksum at 3. rewrite qsumf_nil. ring.
  - unfold accum in IH. rewrite IH, ksum_dadd, ksum_cons. cbn. ring.
Qed.
Lemma ksum_ext P P' l : (forall k, In k (map fst l) -> P k = P' k) -> ksum P l = ksum P' l.
Proof. intros E. apply qsumf_ext. intros e J. rewrite (E (fst e)); [reflexivity|]. apply in_map, J. Qed.
Lemma ksum_none P l : (forall k, In k (map fst l) -> P k = false) -> ksum P l = 0.
Proof. intros E. apply qsumf_zero. intros e J. rewrite E; [reflexivity|]. apply in_map, J. Qed.
Lemma accum_keys l : forall d k, In k (dkeys (accum l d)) <-> In k (dkeys d) \/ In k (map fst l).
Proof.
  induction l as [|[k' v] l IH]; intros d k; cbn [accum fold_left map fst]; [cbn; tauto|].
  unfold accum in IH. rewrite IH. unfold dadd. rewrite dkeys_dset_in. cbn. intuition.
Qed.
Lemma accum_wf l : forall d, dwf d -> dwf (accum l d).
Proof.
  induction l as [|[k' v] l IH]; intros d W; [exact W|]. cbn [accum fold_left]. apply IH, dwf_dset, W.
Qed.
Lemma ksum_dget d k : dwf d -> ksum (fun k' => eqb k' k) d = dgetd d k.
Proof.
  unfold dwf, ksum, dgetd. induction d as [|[k' v'] t IH]; cbn; intros N; [reflexivity|]. fold (dkeys t) in *.
  inversion N; subst. rewrite qsumf_cons. cbn. destruct (eq_dec k k') as [->|Ne].
  - rewrite eqb_refl. rewrite qsumf_zero; [ring|]. intros [k2 v2] J. cbn.
    destruct (eqb k2 k') eqn:E; [|reflexivity]. apply eqb_eq in E. subst. apply (in_map fst) in J. contradiction.
  - rewrite IH by assumption. assert (E : eqb k' k = false) by (apply eqb_false; congruence). rewrite E. ring.
Qed.
(** the entry of a key after accumulation *)
Lemma dget_accum l d k : dwf d -> (In k (dkeys d) \/ In k (map fst l)) ->
  dget (accum l d) k = Some (dgetd d k + ksum (fun k' => eqb k' k) l).
Proof.
  intros W J. pose proof (ksum_dget k (accum_wf l W)) as E. rewrite ksum_accum, ksum_dget in E by exact W.
  apply accum_keys in J. apply dkeys_dget in J. destruct J as [v J]. unfold dgetd in E at 2. rewrite J in *. congruence.
Qed.
Lemma dget_accum_none l d k : ~ In k (dkeys d) -> ~ In k (map fst l) -> dget (accum l d) k = None.
Proof. intros A B. apply dget_None. rewrite accum_keys. tauto. Qed.

(** accumulating a dictionary without repetition into an empty one copies it *)
Lemma accum_fresh l : forall d, NoDup (map fst l) -> (forall k, In k (map fst l) -> ~ In k (dkeys d)) ->
  accum l d = d ++ l.
Proof.
  induction l as [|[k v] l IH]; intros d N D; cbn [accum fold_left fst snd]; [symmetry; apply app_nil_r|].
  cbn in N. inversion N; subst. unfold dadd. rewrite dkeys_dset_absent by (apply D; left; reflexivity).
  assert (G : dgetd d k = 0).
  { unfold dgetd. assert (E : dget d k = None) by (apply dget_None, D; left; reflexivity). rewrite E. reflexivity. }
  rewrite G. replace (0 + v) with v by ring. unfold accum in IH. rewrite IH; [rewrite <- app_assoc; reflexivity|assumption|].
  intros k' J C. unfold dkeys in C. rewrite map_app in C. apply in_app_iff in C. destruct C as [C|[C|[]]].
  - apply (D k'); [right; exact J|exact C].
  - cbn in C. subst. contradiction.
Qed.
End Acc.

(** sorting is unique when [<] is a strict total order on the elements *)
Section SortUnique.
Context {A : Type} (lt : A -> A -> bool).
Hypothesis trans : forall x y z, lt x y = true -> lt y z = true -> lt x z = true.
Hypothesis irrefl : forall x, lt x x = false.
(** y < x or neither; [srt]: no later element is smaller than an earlier one *)
Inductive srt : list A -> Prop :=
| srt_nil : srt []
| srt_cons x l : (forall y, In y l -> lt y x = false) -> srt l -> srt (x :: l).
(** weak order: incomparability is transitive enough for insertion *)
Hypothesis weak : forall x y z, lt x y = true -> lt x z = true \/ lt z y = true.
Lemma insert_srt x l : srt l -> srt (insert lt x l).
Proof.
  induction l as [|y t IH]; intros S; cbn; [repeat constructor; intros ? []|].
  inversion S as [|y' t' Hy St]; subst. destruct (lt y x) eqn:E.
  - constructor; [|apply IH, St]. intros z J. apply (Permutation_in _ (Permutation_sym (insert_perm lt x t))) in J.
    destruct J as [<-|J]; [|apply Hy, J]. destruct (lt x y) eqn:C; [|reflexivity].
    pose proof (@trans _ _ _ C E) as D. rewrite irrefl in D. discriminate.
  - constructor; [|exact S]. intros z [<-|J]; [exact E|]. destruct (lt z x) eqn:C; [|reflexivity].
    destruct (@weak _ _ y C) as [D|D]; [|congruence]. rewrite (Hy z J) in D. discriminate.
Qed.
Lemma py_sorted_srt l : srt (py_sorted lt l).
Proof. induction l; cbn; [constructor|apply insert_srt; assumption]. Qed.
Lemma srt_unique l : forall m, srt l -> srt m -> Permutation l m ->
  (forall x y, In x l -> In y l -> lt x y = false -> lt y x = false -> x = y) -> l = m.
Proof.
  induction l as [|x l IH]; intros m Sl Sm P T; [apply Permutation_nil in P; congruence|].
  destruct m as [|y m]; [symmetry in P; apply Permutation_nil in P; discriminate|].
  inversion Sl as [|? ? Hx Sl']; inversion Sm as [|? ? Hy Sm']; subst.
  assert (x = y).
  { assert (Jy : In y (x :: l)) by (eapply Permutation_in; [symmetry; exact P|left; reflexivity]).
    assert (Jx : In x (y :: m)) by (eapply Permutation_in; [exact P|left; reflexivity]).
    destruct Jy as [|Jy]; [assumption|]. destruct Jx as [|Jx]; [congruence|].
    apply T; [left; reflexivity|right; exact Jy|apply Hy, Jx|apply Hx, Jy]. }
  subst y. f_equal. apply IH; auto.
  - eapply Permutation_cons_inv; eauto.
  - intros u v Ju Jv. apply T; right; assumption.
Qed.
Lemma py_sorted_unique l m : Permutation l m ->
  (forall x y, In x l -> In y l -> lt x y = false -> lt y x = false -> x = y) -> py_sorted lt l = py_sorted lt m.
Proof.
  intros P T. apply srt_unique; try apply py_sorted_srt.
  - rewrite <- !py_sorted_perm. exact P.
  - intros x y Jx Jy. apply T; eapply Permutation_in; try eassumption; symmetry; apply py_sorted_perm.
Qed.
End SortUnique.

Lemma Forall2_impl {A B} (P Q : A -> B -> Prop) l m : (forall a b, P a b -> Q a b) -> Forall2 P l m -> Forall2 Q l m.
Proof. intros I F. induction F; constructor; auto. Qed.
