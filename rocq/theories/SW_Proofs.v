(** Proofs about the sweep. *)
From Coq Require Import String Sorted Permutation.
From Verif Require Import PyBase PyLib SW_Model SW_Spec.

Lemma find_app {A} (f : A -> bool) l m : find f (l ++ m) = match find f l with Some x => Some x | None => find f m end.
Proof. induction l as [|x t IH]; cbn; [reflexivity|]. destruct (f x); auto. Qed.
Lemma find_none_iff {A} (f : A -> bool) l : (if find f l then true else false) = existsb f l.
Proof. induction l as [|x t IH]; cbn; [reflexivity|]. destruct (f x); auto. Qed.
Lemma find_In {A} (f : A -> bool) l x : find f l = Some x -> In x l /\ f x = true.
Proof. apply find_some. Qed.
Lemma find_split {A} `{EqDec A} (f : A -> bool) pre k post :
  NoDup (pre ++ k :: post) -> eqb (find f (pre ++ k :: post)) (Some k) = f k && negb (existsb f pre).
Proof.
  intros N. rewrite find_app, <- find_none_iff. destruct (find f pre) as [x|] eqn:E.
  - rewrite andb_false_r. apply eqb_false. intros [= ->]. apply find_In in E.
    apply NoDup_remove_2 in N. apply N, in_or_app. tauto.
  - cbn. rewrite andb_true_r. destruct (f k) eqn:Fk; [apply eqb_refl|].
    apply eqb_false. intros E1. apply find_In in E1. destruct E1; congruence.
Qed.
Lemma find_ext {A} (f g : A -> bool) l : (forall x, In x l -> f x = g x) -> find f l = find g l.
Proof.
  induction l as [|x t IH]; intros E; cbn; [reflexivity|]. rewrite (E x (or_introl eq_refl)).
  destruct (g x); [reflexivity|]. apply IH. intros y J. apply E. right. exact J.
Qed.
Lemma flat_map_none {A B} (f : A -> list B) l : (forall x, In x l -> f x = []) -> flat_map f l = [].
Proof. induction l as [|x t IH]; intros E; cbn; [reflexivity|]. rewrite E, IH; auto using in_eq. intros y J. apply E. right. exact J. Qed.
Lemma flat_map_one {A B} (f : A -> list B) l k :
  NoDup l -> In k l -> (forall x, In x l -> x <> k -> f x = []) -> flat_map f l = f k.
Proof.
  induction l as [|x t IH]; intros N I E; [contradiction|]. inversion N as [|? ? N1 N2]; subst. cbn.
  destruct I as [->|I].
  - rewrite flat_map_none, app_nil_r; [reflexivity|]. intros y J. apply E; [right; exact J|]. intros ->. contradiction.
  - rewrite E, IH; auto; [intros y J; apply E; right; exact J|left; reflexivity|]. intros ->. contradiction.
Qed.
Lemma flat_map_flat_map {A B C} (f : A -> list B) (g : B -> list C) l : flat_map g (flat_map f l) = flat_map (fun x => flat_map g (f x)) l.
Proof. induction l as [|x t IH]; cbn; [reflexivity|]. rewrite flat_map_app, IH. reflexivity. Qed.
Lemma flat_map_ext_in {A B} (f g : A -> list B) l : (forall x, In x l -> f x = g x) -> flat_map f l = flat_map g l.
Proof.
  induction l as [|x t IH]; intros E; cbn; [reflexivity|]. rewrite E, IH; [reflexivity| |left; reflexivity].
  intros y J. apply E. right. exact J.
Qed.

Section Regions.
Context {face : Type} `{EqDec face}.
Notation region := (@region face).

#[local] Arguments r_or : simpl never.
#[local] Arguments r_and : simpl never.
#[local] Arguments r_sub : simpl never.
#[local] Arguments has : simpl never.
#[local] Arguments is_empty : simpl never.
Lemma has_filter f (a : region) p : has (filter f a) p = has a p && f p.
Proof.
  unfold has. induction a as [|x t IH]; cbn [filter existsb]; [reflexivity|].
  destruct (eqb p x) eqn:E.
  - apply eqb_eq in E. subst x. cbn [orb]. destruct (f p) eqn:F; cbn [existsb].
    + rewrite eqb_refl. reflexivity.
    + rewrite IH. rewrite ?F, ?andb_false_r. reflexivity.
  - cbn [orb]. destruct (f x); cbn [existsb]; rewrite ?E; exact IH.
Qed.
Lemma has_or (a b : region) p : has (r_or a b) p = has a p || has b p.
Proof. apply existsb_app. Qed.
Lemma has_and (a b : region) p : has (r_and a b) p = has a p && has b p.
Proof. apply has_filter. Qed.
Lemma has_sub (a b : region) p : has (r_sub a b) p = has a p && negb (has b p).
Proof. unfold r_sub. apply (has_filter (fun p => negb (has b p))). Qed.
Lemma has_nil p : has ([] : region) p = false.
Proof. reflexivity. Qed.
Lemma is_empty_nil (r : region) : is_empty r = true -> r = [].
Proof. destruct r; [reflexivity|discriminate]. Qed.
Lemma is_empty_has (r : region) : (forall p, has r p = false) -> is_empty r = true.
Proof. destruct r as [|x t]; [reflexivity|]. intros E. specialize (E x). unfold has in E. cbn in E. rewrite eqb_refl in E. discriminate. Qed.

(** the shapes of the level list that occur *)
Definition shape (pyra : list region) : Prop :=
  match pyra with [] | [_] => True | [_; q] => forall p, has q p = false | _ => False end.
Definition first_level (pyra : list region) : region := nth 0 pyra [].

Ltac split_empty Z0 := repeat (match goal with |- context [is_empty ?r] =>
  let R := fresh "R" in destruct (is_empty r) eqn:R; [pose proof (Z0 _ R)|]; cbn end).
Ltac fin := eexists _, _, _; (split; [reflexivity|]); cbn; repeat split; intros p;
  repeat (match goal with Z : forall q : face, has _ q = _ |- _ => specialize (Z p) end);
  repeat (rewrite ?has_sub, ?has_and, ?has_or, ?has_nil in * ); cbn [negb andb orb] in *;
  repeat (match goal with Z : context [has _ p] |- _ => revert Z end);
  repeat (match goal with |- context [has ?r p] => is_var r; destruct (has r p) end); cbn [negb andb orb]; intros; congruence.
Lemma merge_ok pyra lin lout :
  shape pyra -> (forall p, has lout p = has (first_level pyra) p) ->
  exists li lo pyra', merge_events pyra lin lout = (li, lo, pyra') /\ shape pyra' /\
    (forall p, has (first_level pyra') p = has lin p) /\
    (forall p, has li p = has lin p && negb (has lout p)) /\
    (forall p, has lo p = has lout p && negb (has lin p)).
Proof.
  unfold first_level. intros S E.
  assert (Z0 : forall r, is_empty r = true -> forall p : face, has r p = false) by (intros r R p; rewrite (is_empty_nil _ R); reflexivity).
  destruct pyra as [|P0 [|Q [|? ?]]]; cbn in S, E; [| | |contradiction].
  - unfold merge_events. cbn. split_empty Z0; fin.
  - unfold merge_events. cbn. split_empty Z0; fin.
  - unfold merge_events. cbn. split_empty Z0;
      first [fin | exfalso; match goal with R : is_empty (r_and _ ?q) = false, S : forall p, has ?q p = false |- _ =>
        rewrite is_empty_has in R; [discriminate|]; intros p; rewrite has_and, S, andb_false_r; reflexivity end].
Qed.

(** ** legalisation *)
Definition inb (a b : mkey -> bool) (l : list mkey) (k : mkey) : bool :=
  a k && ((eqb (find a l) (Some k) && negb (eqb (find b l) (Some k))) ||
          (b k && negb (eqb (find a l) (Some k)) && negb (eqb (find b l) (Some k)) && negb (eqb (find a l) (find b l)))).
Definition some_in (a b : mkey -> bool) (l : list mkey) : bool :=
  match find a l with Some _ => negb (eqb (find a l) (find b l)) | None => false end.

Section Legal.
Variables (lins louts : dict mkey region) (st0 : dict mkey region) (cur0 : dict mkey (list region)).
Variables (a b : face -> mkey -> bool) (names : list mkey).
Hypothesis Nnames : NoDup names.
Hypothesis Hin : forall k, In k names -> forall p, has (dgr lins k) p = a p k.
Hypothesis Hout : forall k, In k names -> forall p, has (dgr louts k) p = b p k.
Definition pyra_of (d : dict mkey (list region)) (k : mkey) := match dget d k with Some l => l | None => [] end.
Hypothesis Hshape : forall k, In k names -> shape (pyra_of cur0 k).
Hypothesis Hcur : forall k, In k names -> forall p, has (first_level (pyra_of cur0 k)) p = b p k.
Hypothesis Hst : forall k, In k names -> forall p, has (dgr st0 k) p = eqb (find (b p) names) (Some k).
Hypothesis Hst0 : dwf st0 /\ forall k, In k (dkeys st0) -> In k names.

Record linv (pre : list mkey) (x : @fz face) : Prop := LI {
  li_shape : forall k, In k pre -> shape (pyra_of (f_current x) k);
  li_cur : forall k, In k pre -> forall p, has (first_level (pyra_of (f_current x) k)) p = a p k;
  li_st : forall k, In k pre -> forall p, has (dgr (f_state x) k) p = eqb (find (a p) pre) (Some k);
  li_in : forall k, In k pre -> forall p, has (dgr (din x) k) p = inb (a p) (b p) pre k;
  li_out : forall k, In k pre -> forall p, has (dgr (dout x) k) p = inb (b p) (a p) pre k;
  li_cur0 : forall k, ~ In k pre -> dget (f_current x) k = dget cur0 k;
  li_st0 : forall k, ~ In k pre -> dget (f_state x) k = dget st0 k;
  li_ain : forall p, has (all_in x) p = some_in (a p) (b p) pre;
  li_aout : forall p, has (all_out x) p = some_in (b p) (a p) pre;
  li_all : forall p, has (all x) p = existsb (a p) pre;
  li_wf : dwf (f_state x);
  li_keys : forall k, In k (dkeys (f_state x)) -> In k names;
  li_pre : forall k, In k pre -> In k (dkeys (f_state x)) }.

Lemma linv_init : linv [] (FZ st0 cur0 [] [] [] [] []).
Proof. destruct Hst0. split; cbn; auto; contradiction. Qed.

Lemma dgr_dset_same (d : dict mkey region) k v : dgr (dset d k v) k = v.
Proof. unfold dgr. rewrite dget_dset_same. reflexivity. Qed.
Lemma dgr_dset_other (d : dict mkey region) k k' v : k' <> k -> dgr (dset d k v) k' = dgr d k'.
Proof. intros N. unfold dgr. rewrite dget_dset_other; auto. Qed.
Lemma find_snoc (f : mkey -> bool) l k : find f (l ++ [k]) = match find f l with Some x => Some x | None => if f k then Some k else None end.
Proof. rewrite find_app. reflexivity. Qed.
Lemma find_present (f : mkey -> bool) l k : In k l -> f k = true -> exists x, find f l = Some x.
Proof. intros I F. destruct (find f l) eqn:E; [eauto|]. pose proof (find_none _ _ E _ I). congruence. Qed.
Lemma inb_stable (f g : mkey -> bool) l k k' : In k' l -> k' <> k -> inb f g (l ++ [k]) k' = inb f g l k'.
Proof.
  intros I N. unfold inb. destruct (f k') eqn:F; [|reflexivity]. cbn.
  destruct (find_present f l k' I F) as [x Ex]. rewrite !find_snoc, Ex.
  destruct (g k') eqn:G.
  - destruct (find_present g l k' I G) as [y Ey]. rewrite Ey. reflexivity.
  - cbn. rewrite !orb_false_r. destruct (find g l) as [y|]; [reflexivity|]. destruct (g k); [|reflexivity].
    replace (eqb (Some k) (Some k')) with false by (symmetry; apply eqb_false; congruence). reflexivity.
Qed.

Lemma linv_step pre k post x : names = pre ++ k :: post -> linv pre x -> linv (pre ++ [k]) (legalize lins louts x k).
Proof.
  intros En [L1 L2 L3 L4 L5 L6 L7 L8 L9 L10 L11 L12 L13].
  pose proof Nnames as N. rewrite En in N.
  assert (Ik : In k names) by (rewrite En; apply in_or_app; right; left; reflexivity).
  assert (Nk : ~ In k pre). { apply NoDup_remove_2 in N. intros J. apply N, in_or_app. auto. }
  assert (Hcurk : pyra_of (f_current x) k = pyra_of cur0 k) by (unfold pyra_of; rewrite (L6 k Nk); reflexivity).
  assert (Hstk : dgr (f_state x) k = dgr st0 k) by (unfold dgr; rewrite (L7 k Nk); reflexivity).
  unfold legalize. change (match dget (f_current x) k with Some l => l | None => [] end) with (pyra_of (f_current x) k).
  rewrite Hcurk.
  destruct (merge_ok (pyra_of cur0 k) (dgr lins k) (dgr louts k)) as (li & lo & py & Em & Sh & M1 & M2 & M3).
  { apply Hshape, Ik. }
  { intros p. rewrite Hout, Hcur; auto. }
  rewrite Em. change (nth 0 (pyra_of cur0 k) []) with (first_level (pyra_of cur0 k)).
  change (nth 0 py []) with (first_level py). rewrite Hstk.
  assert (Other : forall k', In k' (pre ++ [k]) -> k' = k \/ (k' <> k /\ In k' pre)).
  { intros k' J. destruct (eq_dec k' k) as [->|D]; [left; reflexivity|right; split; auto]. apply in_app_or in J. destruct J as [J|[J|[]]]; congruence. }
  (* the values at one point *)
  assert (V : forall p, let A := a p k in let B := b p k in
     has li p = A && negb B /\ has lo p = B && negb A /\ has (first_level py) p = A /\
     has (first_level (pyra_of cur0 k)) p = B /\ has (dgr st0 k) p = B && negb (existsb (b p) pre)).
  { intros p. cbn zeta. rewrite M1, M2, M3, Hin, Hout, Hcur, Hst by auto. repeat split.
    rewrite En. apply find_split, N. }
  assert (Nf : forall f : mkey -> bool, eqb (find f pre) (Some k) = false).
  { intros f. apply eqb_false. intros E. apply find_In in E. tauto. }
  assert (Hd : forall p,
    let lin_f := r_sub (r_or (r_sub li (all x)) (r_and (first_level (pyra_of cur0 k)) (all_out x))) lo in
    let lout_f := r_sub (r_or (r_and lo (dgr st0 k)) (r_and (first_level py) (all_in x))) li in
    has lin_f p = inb (a p) (b p) (pre ++ [k]) k /\ has lout_f p = inb (b p) (a p) (pre ++ [k]) k /\
    has (r_sub (r_or (dgr st0 k) lin_f) lout_f) p = eqb (find (a p) (pre ++ [k])) (Some k) /\
    has (all_in x) p || inb (a p) (b p) (pre ++ [k]) k = some_in (a p) (b p) (pre ++ [k]) /\
    has (all_out x) p || inb (b p) (a p) (pre ++ [k]) k = some_in (b p) (a p) (pre ++ [k])).
  { intros p. cbn zeta. destruct (V p) as (V1 & V2 & V3 & V4 & V5). cbn zeta in *.
    rewrite !has_sub, !has_or, !has_sub, !has_and, !has_or, !has_sub, !has_and, V1, V2, V3, V4, V5, L8, L9, L10.
    pose proof (Nf (a p)) as Na. pose proof (Nf (b p)) as Nb.
    rewrite <- !find_none_iff. unfold inb, some_in. rewrite !find_snoc.
    destruct (find (a p) pre) as [x1|] eqn:E1, (find (b p) pre) as [x2|] eqn:E2;
      destruct (a p k) eqn:Ea, (b p k) eqn:Eb; cbn [negb andb orb]; rewrite ?eqb_refl, ?Na, ?Nb; cbn [negb andb orb];
      rewrite ?(eqb_sym (Some k) (Some x1)), ?(eqb_sym (Some k) (Some x2)), ?Na, ?Nb, ?(eqb_sym (Some x2) (Some x1));
      try (destruct (eqb (Some x1) (Some x2)) eqn:E12); cbn [negb andb orb]; repeat split; try reflexivity;
      try (symmetry; apply eqb_false; congruence). }
  split; cbn [f_current f_state din dout all_in all_out all].
  - intros k' J. unfold pyra_of. destruct (Other k' J) as [->|[D J1]]; [rewrite dget_dset_same; exact Sh|].
    rewrite dget_dset_other by auto. apply L1, J1.
  - intros k' J p. unfold pyra_of. destruct (Other k' J) as [->|[D J1]]; [rewrite dget_dset_same, M1; apply Hin, Ik|].
    rewrite dget_dset_other by auto. apply L2, J1.
  - intros k' J p. destruct (Other k' J) as [->|[D J1]]; [rewrite dgr_dset_same; apply (Hd p)|].
    rewrite dgr_dset_other, (L3 _ J1), find_snoc by auto. destruct (find (a p) pre); [reflexivity|].
    destruct (a p k); [|reflexivity]. transitivity false; [apply eqb_false|symmetry; apply eqb_false]; congruence.
  - intros k' J p. destruct (Other k' J) as [->|[D J1]]; [rewrite dgr_dset_same; apply (Hd p)|].
    rewrite dgr_dset_other, (L4 _ J1), inb_stable by auto. reflexivity.
  - intros k' J p. destruct (Other k' J) as [->|[D J1]]; [rewrite dgr_dset_same; apply (Hd p)|].
    rewrite dgr_dset_other, (L5 _ J1), inb_stable by auto. reflexivity.
  - intros k' J. rewrite dget_dset_other; [apply L6|]; intros E; apply J; apply in_or_app; [left; exact E|right; left; congruence].
  - intros k' J. rewrite dget_dset_other; [apply L7|]; intros E; apply J; apply in_or_app; [left; exact E|right; left; congruence].
  - intros p. destruct (Hd p) as (H1 & H2 & H3 & H4 & H5). rewrite has_or, H1. exact H4.
  - intros p. destruct (Hd p) as (H1 & H2 & H3 & H4 & H5). rewrite has_or, H2. exact H5.
  - intros p. destruct (Hd p) as (H1 & H2 & H3 & H4 & H5). rewrite has_or, H3, L10, existsb_app, find_snoc, <- find_none_iff. cbn.
    destruct (find (a p) pre) eqn:E1; [reflexivity|]. cbn. destruct (a p k); [apply eqb_refl|reflexivity].
  - apply dwf_dset, L11.
  - intros k' J. apply dkeys_dset_in in J. destruct J as [->|J]; [exact Ik|apply L12, J].
  - intros k' J. apply dkeys_dset_in. destruct (Other k' J) as [->|[D J1]]; [left; reflexivity|right; apply L13, J1].
Qed.

Lemma linv_fold ks : forall pre post x, names = pre ++ ks ++ post -> linv pre x ->
  linv (pre ++ ks) (fold_left (legalize lins louts) ks x).
Proof.
  induction ks as [|k t IH]; intros pre post x En L; cbn; [rewrite app_nil_r; exact L|].
  replace (pre ++ k :: t) with ((pre ++ [k]) ++ t) by (rewrite <- app_assoc; reflexivity).
  apply IH with (post := post); [rewrite <- app_assoc; exact En|].
  apply linv_step with (post := t ++ post); [exact En|exact L].
Qed.
End Legal.
End Regions.
