(** Shared building blocks: Python dictionaries (insertion ordered association
    lists), results with exceptions, finite sums over canonical rationals. *)
From Coq Require Export List ZArith QArith Qcanon Lia Bool Arith.
From Coq Require Import Permutation.
Export ListNotations.

Set Implicit Arguments.

(** Decidable Leibniz equality, used for Python's [==] on keys. *)
Class EqDec (A : Type) := eq_dec : forall x y : A, {x = y} + {x <> y}.

#[export] Instance EqDec_nat : EqDec nat := Nat.eq_dec.
#[export] Instance EqDec_Z : EqDec Z := Z.eq_dec.
#[export] Instance EqDec_bool : EqDec bool := Bool.bool_dec.
#[export] Instance EqDec_Qc : EqDec Qc := Qc_eq_dec.
#[export] Instance EqDec_pair {A B} `{EqDec A} `{EqDec B} : EqDec (A * B).
Proof. intros [a b] [c d]. destruct (eq_dec a c), (eq_dec b d); [left|right|right|right]; congruence. Defined.
#[export] Instance EqDec_option {A} `{EqDec A} : EqDec (option A).
Proof. intros [a|] [b|]; try (right; congruence); [|left; reflexivity].
       destruct (eq_dec a b); [left|right]; congruence. Defined.
#[export] Instance EqDec_list {A} `{EqDec A} : EqDec (list A) := list_eq_dec eq_dec.

Definition eqb {A} `{EqDec A} (x y : A) : bool := if eq_dec x y then true else false.

Lemma eqb_true {A} `{EqDec A} (x y : A) : eqb x y = true <-> x = y.
Proof. unfold eqb; destruct (eq_dec x y); split; congruence. Qed.
Lemma eqb_false {A} `{EqDec A} (x y : A) : eqb x y = false <-> x <> y.
Proof. unfold eqb; destruct (eq_dec x y); split; congruence. Qed.
Lemma eqb_refl {A} `{EqDec A} (x : A) : eqb x x = true.
Proof. apply eqb_true; reflexivity. Qed.
Lemma eqb_sym {A} `{EqDec A} (x y : A) : eqb x y = eqb y x.
Proof. unfold eqb; destruct (eq_dec x y), (eq_dec y x); congruence. Qed.

(** ** Python dict: keys in insertion order, at most one entry per key *)
Definition dict (K V : Type) := list (K * V).

Section Dict.
Context {K V : Type} `{EqDec K}.

(** [d.get(k)] *)
Fixpoint dget (d : dict K V) (k : K) : option V :=
  match d with
  | [] => None
  | (k', v) :: t => if eq_dec k k' then Some v else dget t k
  end.

(** [k in d] *)
Definition dmem (d : dict K V) (k : K) : bool :=
  match dget d k with Some _ => true | None => false end.

(** [d[k] = v] : replaces in place, appends a new key *)
Fixpoint dset (d : dict K V) (k : K) (v : V) : dict K V :=
  match d with
  | [] => [(k, v)]
  | (k', v') :: t => if eq_dec k k' then (k, v) :: t else (k', v') :: dset t k v
  end.

(** effect of [del d[k]] when the key is present *)
Fixpoint dremove (d : dict K V) (k : K) : dict K V :=
  match d with
  | [] => []
  | (k', v') :: t => if eq_dec k k' then t else (k', v') :: dremove t k
  end.

(** [del d[k]] : KeyError (None) when absent *)
Definition ddel (d : dict K V) (k : K) : option (dict K V) :=
  if dmem d k then Some (dremove d k) else None.

Definition dkeys (d : dict K V) : list K := map fst d.
Definition dvals (d : dict K V) : list V := map snd d.

Definition dwf (d : dict K V) : Prop := NoDup (dkeys d).

Lemma dget_In d k v : dget d k = Some v -> In (k, v) d.
Proof.
  induction d as [|[k' v'] t IH]; simpl; [discriminate|].
  destruct (eq_dec k k'); intros E; [left; congruence|right; auto].
Qed.

Lemma dget_None d k : dget d k = None <-> ~ In k (dkeys d).
Proof.
  induction d as [|[k' v'] t IH]; simpl; [tauto|].
  destruct (eq_dec k k'); [split; [discriminate|intros C; exfalso; apply C; auto]|].
  rewrite IH; split; intros A B; apply A; [destruct B; [congruence|auto]|auto].
Qed.

Lemma dget_Some_key d k v : dget d k = Some v -> In k (dkeys d).
Proof. intros E; apply dget_In in E; apply (in_map fst) in E; exact E. Qed.

Lemma dkeys_dget d k : In k (dkeys d) -> exists v, dget d k = Some v.
Proof.
  intros I; destruct (dget d k) eqn:E; [eauto|]. apply dget_None in E; contradiction.
Qed.

Lemma In_dget d k v : dwf d -> In (k, v) d -> dget d k = Some v.
Proof.
  unfold dwf; induction d as [|[k' v'] t IH]; simpl; [tauto|].
  intros N [E|I].
  - inversion E; subst. destruct (eq_dec k k); congruence.
  - inversion N; subst. destruct (eq_dec k k') as [->|]; [|auto].
    exfalso; apply H2. apply (in_map fst) in I; exact I.
Qed.

Lemma dmem_true d k : dmem d k = true <-> In k (dkeys d).
Proof.
  unfold dmem; destruct (dget d k) eqn:E; split; try discriminate; auto.
  - intros _; eapply dget_Some_key; eauto.
  - intros I; apply dget_None in E; contradiction.
Qed.
Lemma dmem_false d k : dmem d k = false <-> dget d k = None.
Proof. unfold dmem; destruct (dget d k); split; congruence. Qed.

Lemma dget_dset_same d k v : dget (dset d k v) k = Some v.
Proof.
  induction d as [|[k' v'] t IH]; simpl; [destruct (eq_dec k k); congruence|].
  destruct (eq_dec k k') eqn:E; simpl; [destruct (eq_dec k k); congruence|rewrite E; exact IH].
Qed.
Lemma dget_dset_other d k k' v : k' <> k -> dget (dset d k v) k' = dget d k'.
Proof.
  intros N; induction d as [|[k1 v1] t IH]; simpl.
  - destruct (eq_dec k' k); congruence.
  - destruct (eq_dec k k1) as [E|E]; simpl.
    + destruct (eq_dec k' k), (eq_dec k' k1); congruence.
    + destruct (eq_dec k' k1); congruence.
Qed.
Lemma dget_dset d k k' v : dget (dset d k v) k' = if eq_dec k' k then Some v else dget d k'.
Proof. destruct (eq_dec k' k) as [->|N]; [apply dget_dset_same|apply dget_dset_other; exact N]. Qed.

Lemma dkeys_dset_in d k v k' : In k' (dkeys (dset d k v)) <-> k' = k \/ In k' (dkeys d).
Proof.
  induction d as [|[k1 v1] t IH]; simpl; [intuition congruence|].
  destruct (eq_dec k k1) as [->|E]; simpl; [intuition congruence|]. rewrite IH; intuition.
Qed.
Lemma dkeys_dset_present d k v : In k (dkeys d) -> dkeys (dset d k v) = dkeys d.
Proof.
  induction d as [|[k1 v1] t IH]; simpl; [tauto|].
  intros I; destruct (eq_dec k k1) as [->|E]; simpl; [reflexivity|].
  f_equal; apply IH; destruct I; [congruence|auto].
Qed.
Lemma dkeys_dset_absent d k v : ~ In k (dkeys d) -> dset d k v = d ++ [(k, v)].
Proof.
  induction d as [|[k1 v1] t IH]; simpl; [reflexivity|].
  intros I; destruct (eq_dec k k1) as [->|E]; simpl; [exfalso; apply I; auto|].
  f_equal; apply IH; auto.
Qed.
Lemma dwf_dset d k v : dwf d -> dwf (dset d k v).
Proof.
  unfold dwf; intros N; destruct (in_dec eq_dec k (dkeys d)) as [I|I].
  - rewrite dkeys_dset_present; auto.
  - rewrite dkeys_dset_absent by auto. unfold dkeys; rewrite map_app; simpl.
    apply Permutation_NoDup with (l := k :: map fst d).
    + apply Permutation_cons_append.
    + constructor; auto.
Qed.

Lemma dkeys_dremove_in d k k' : dwf d -> (In k' (dkeys (dremove d k)) <-> k' <> k /\ In k' (dkeys d)).
Proof.
  unfold dwf; induction d as [|[k1 v1] t IH]; simpl; [tauto|].
  intros N; inversion N; subst. destruct (eq_dec k k1) as [->|E]; simpl.
  - split; [intros I; split; [congruence|auto]|intros [A [B|B]]; [congruence|auto]].
  - rewrite IH by auto. intuition congruence.
Qed.
Lemma dwf_dremove d k : dwf d -> dwf (dremove d k).
Proof.
  unfold dwf; induction d as [|[k1 v1] t IH]; simpl; [auto|].
  intros N; inversion N; subst. destruct (eq_dec k k1) as [->|E]; simpl; [auto|].
  constructor; [|auto]. intros I. apply (dkeys_dremove_in k) in I; [|auto]. tauto.
Qed.
Lemma dget_dremove d k k' : dwf d -> dget (dremove d k) k' = if eq_dec k' k then None else dget d k'.
Proof.
  unfold dwf; induction d as [|[k1 v1] t IH]; simpl; intros N; [destruct (eq_dec k' k); auto|].
  inversion N; subst. destruct (eq_dec k k1) as [->|E]; simpl.
  - destruct (eq_dec k' k1) as [->|]; [|reflexivity]. apply dget_None; auto.
  - rewrite IH by auto. destruct (eq_dec k' k1), (eq_dec k' k); congruence.
Qed.
Lemma length_dremove d k : In k (dkeys d) -> S (length (dremove d k)) = length d.
Proof.
  induction d as [|[k1 v1] t IH]; simpl; [tauto|].
  intros I; destruct (eq_dec k k1) as [->|E]; simpl; [reflexivity|].
  rewrite IH; [reflexivity|]. destruct I; [congruence|auto].
Qed.
Lemma length_dset_present d k v : In k (dkeys d) -> length (dset d k v) = length d.
Proof.
  intros I. pose proof (@dkeys_dset_present d k v I) as E. apply (f_equal (@length K)) in E.
  unfold dkeys in E; rewrite !map_length in E; exact E.
Qed.

End Dict.

(** ** Finite sums *)
Fixpoint qsum (l : list Qc) : Qc := match l with [] => 0%Qc | x :: t => (x + qsum t)%Qc end.
Definition qsumf {A} (f : A -> Qc) (l : list A) : Qc := qsum (map f l).

Local Open Scope Qc_scope.

Section Sums.
Context {A : Type}.
Lemma qsumf_nil (f : A -> Qc) : qsumf f [] = 0. Proof. reflexivity. Qed.
Lemma qsumf_cons (f : A -> Qc) x l : qsumf f (x :: l) = f x + qsumf f l. Proof. reflexivity. Qed.
Lemma qsumf_app (f : A -> Qc) l m : qsumf f (l ++ m) = qsumf f l + qsumf f m.
Proof. induction l; cbn [app]; rewrite ?qsumf_cons, ?qsumf_nil; [ring|rewrite IHl; ring]. Qed.
Lemma qsumf_ext (f g : A -> Qc) l : (forall x, In x l -> f x = g x) -> qsumf f l = qsumf g l.
Proof.
  induction l as [|a l IH]; intros E; [reflexivity|]. rewrite !qsumf_cons, IH, (E a);
  [reflexivity|left; reflexivity|intros x I; apply E; right; exact I].
Qed.
Lemma qsumf_plus (f g : A -> Qc) l : qsumf (fun x => f x + g x) l = qsumf f l + qsumf g l.
Proof. induction l; rewrite ?qsumf_cons, ?qsumf_nil; [ring|rewrite IHl; ring]. Qed.
Lemma qsumf_minus (f g : A -> Qc) l : qsumf (fun x => f x - g x) l = qsumf f l - qsumf g l.
Proof. induction l; rewrite ?qsumf_cons, ?qsumf_nil; [ring|rewrite IHl; ring]. Qed.
Lemma qsumf_scal (c : Qc) (f : A -> Qc) l : qsumf (fun x => c * f x) l = c * qsumf f l.
Proof. induction l; rewrite ?qsumf_cons, ?qsumf_nil; [ring|rewrite IHl; ring]. Qed.
Lemma qsumf_zero (f : A -> Qc) l : (forall x, In x l -> f x = 0) -> qsumf f l = 0.
Proof.
  induction l as [|a l IH]; intros E; [reflexivity|]. rewrite qsumf_cons, IH, (E a);
  [ring|left; reflexivity|intros x I; apply E; right; exact I].
Qed.
Lemma qsumf_perm (f : A -> Qc) l m : Permutation l m -> qsumf f l = qsumf f m.
Proof. induction 1; rewrite ?qsumf_cons; try congruence; ring. Qed.
Lemma qsumf_map {B} (h : B -> A) (f : A -> Qc) l : qsumf f (map h l) = qsumf (fun x => f (h x)) l.
Proof. unfold qsumf; rewrite map_map; reflexivity. Qed.
Lemma qsumf_filter (f : A -> Qc) (p : A -> bool) l :
  qsumf f (filter p l) = qsumf (fun x => if p x then f x else 0) l.
Proof.
  induction l as [|a l IH]; [reflexivity|]. simpl filter. rewrite qsumf_cons.
  destruct (p a); rewrite ?qsumf_cons, IH; ring.
Qed.
(** sum over a duplicate free list of a function supported on one element *)
Lemma qsumf_single `{EqDec A} (f : A -> Qc) l a :
  NoDup l -> In a l -> (forall x, In x l -> x <> a -> f x = 0) -> qsumf f l = f a.
Proof.
  induction l as [|b l IH]; intros N I Z; [destruct I|]. inversion N; subst. rewrite qsumf_cons.
  destruct (eq_dec b a) as [->|Ne].
  - rewrite qsumf_zero; [ring|]. intros x Ix. apply Z; [right; auto|]. intros ->; contradiction.
  - rewrite (Z b) by (auto; left; reflexivity). destruct I as [|I]; [congruence|].
    rewrite IH; [ring|auto|auto|]. intros x Ix; apply Z; right; auto.
Qed.
End Sums.

Lemma qsumf_comm {A B} (f : A -> B -> Qc) (l : list A) (m : list B) :
  qsumf (fun a => qsumf (f a) m) l = qsumf (fun b => qsumf (fun a => f a b) l) m.
Proof.
  induction l as [|a l IH].
  - rewrite qsumf_nil. symmetry; apply qsumf_zero; intros; reflexivity.
  - rewrite qsumf_cons, IH, <- qsumf_plus. apply qsumf_ext; intros; reflexivity.
Qed.

(** Python's [<], [<=], [==] on exact numbers *)
Definition qltb (x y : Qc) : bool := if Qclt_le_dec x y then true else false.
Definition qleb (x y : Qc) : bool := negb (qltb y x).
Definition qeqb (x y : Qc) : bool := if Qc_eq_dec x y then true else false.
Lemma qltb_true x y : qltb x y = true <-> x < y.
Proof.
  unfold qltb. destruct (Qclt_le_dec x y) as [L|L]; split; auto; [discriminate|].
  intros Q; exfalso; apply (Qclt_not_le _ _ Q L).
Qed.
Lemma qltb_false x y : qltb x y = false <-> y <= x.
Proof.
  unfold qltb. destruct (Qclt_le_dec x y) as [L|L]; split; auto; [discriminate|].
  intros Q; exfalso; apply (Qclt_not_le _ _ L Q).
Qed.
Lemma qleb_true x y : qleb x y = true <-> x <= y.
Proof. unfold qleb. rewrite negb_true_iff. apply qltb_false. Qed.
Lemma qleb_false x y : qleb x y = false <-> y < x.
Proof. unfold qleb. rewrite negb_false_iff. apply qltb_true. Qed.
Lemma qeqb_true x y : qeqb x y = true <-> x = y.
Proof. unfold qeqb. destruct (Qc_eq_dec x y); split; congruence. Qed.
Lemma qeqb_false x y : qeqb x y = false <-> x <> y.
Proof. unfold qeqb. destruct (Qc_eq_dec x y); split; congruence. Qed.
(** unfold these last when comparing terms *)
Global Strategy 1000 [qltb qleb qeqb Qclt_le_dec Qc_eq_dec].

Definition list_eqb (l k : list nat) : bool := if list_eq_dec Nat.eq_dec l k then true else false.
Lemma list_eqb_true l k : list_eqb l k = true -> l = k.
Proof. unfold list_eqb. destruct (list_eq_dec Nat.eq_dec l k); [auto|discriminate]. Qed.
