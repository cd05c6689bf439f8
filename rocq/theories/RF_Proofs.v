(** The tables and the numbers of a network of floats. *)
From Coq Require Import ZArith Reals Lra Lia Psatz List.
From Flocq Require Import Core.Core IEEE754.BinarySingleNaN.
From Verif Require Import PyBase FP_Model FP_Spec FP_Proofs FC_Model FC_Spec FC_Proofs FC_Caps RN_Model RN_Spec RN_Inv RN_Ops RN_Elim RN_All RF_Model RF_Spec.
Import ListNotations.
Local Close Scope Qc_scope.
Local Open Scope R_scope.

(** ** the list of numbers *)
Lemma fset_length h r x : List.length (fset h r x) = List.length h.
Proof. revert r; induction h as [|y h IH]; intros [|r]; simpl; auto. Qed.
Lemma fget_fset h r r' x : (r < List.length h)%nat -> fget (fset h r x) r' = if Nat.eq_dec r' r then x else fget h r'.
Proof.
  unfold fget; revert r r'; induction h as [|y h IH]; intros r r' L; simpl in *; [lia|].
  destruct r as [|r], r' as [|r']; simpl; try reflexivity. rewrite IH by lia. destruct (Nat.eq_dec r' r), (Nat.eq_dec (S r') (S r)); congruence || lia.
Qed.
Lemma fget_app h x r : (r < List.length h)%nat -> fget (h ++ [x]) r = fget h r.
Proof. intros L. unfold fget. now apply app_nth1. Qed.
Lemma fget_app_last h x : fget (h ++ [x]) (List.length h) = x.
Proof. unfold fget. now rewrite app_nth2, Nat.sub_diag by lia. Qed.

(** ** structure *)
Record SInv (n : fnet) : Prop := { si_inv : Inv (tables n); si_len : List.length (objects n) = List.length (heap (tables n)) }.
Lemma heap_add t a b q : List.length (heap (add_cond t a b q)) = S (List.length (heap t)).
Proof. unfold add_cond, new_cond, add_cond_ref. cbn. destruct (dget (s t) (a, b)); cbn; rewrite ?hset_length, app_length; cbn; lia. Qed.
Lemma s_add t a b q x y : a <> b -> dget (s (add_cond t a b q)) (x, y) = match dget (s t) (a, b) with Some _ => dget (s t) (x, y) | None => if same_pair x y a b then Some (List.length (heap t)) else dget (s t) (x, y) end.
Proof.
  intros N. unfold add_cond, new_cond, add_cond_ref. cbn. destruct (dget (s t) (a, b)) as [r|] eqn:E; cbn; [reflexivity|].
  rewrite !dget_dset. destruct (same_pair x y a b) eqn:SP.
  - apply same_pair_spec in SP. destruct SP as [[-> ->]|[-> ->]]; des_eq; reflexivity || congruence.
  - des_eq; try reflexivity; exfalso; assert (same_pair x y a b = true) by (apply same_pair_spec; (left; split; congruence) || (right; split; congruence)); congruence.
Qed.
Lemma SInv_add n a b x : SInv n -> a <> b -> In a (f_nodes n) -> In b (f_nodes n) -> SInv (f_add_cond n a b x).
Proof.
  intros [I L] N A B. constructor; cbn.
  - now apply Inv_add_cond.
  - rewrite heap_add. destruct (dget (s (tables n)) (a, b)); rewrite ?fset_length, app_length; cbn; lia.
Qed.
(** the number between two nodes once another resistor is added *)
Definition joined (n : fnet) (a b : nid) (x : float) : float := match dget (s (tables n)) (a, b) with Some _ => fadd (f_cond n a b) x | None => x end.
Lemma f_cond_add n a b x p q : SInv n -> a <> b -> f_cond (f_add_cond n a b x) p q = if same_pair p q a b then joined n a b x else f_cond n p q.
Proof.
  intros [I L] N. unfold joined, f_cond. cbn [tables objects f_add_cond]. rewrite s_add by exact N. destruct (dget (s (tables n)) (a, b)) as [r|] eqn:E.
  - assert (R := s_ref I _ _ E). destruct (same_pair p q a b) eqn:SP.
    + assert (X : dget (s (tables n)) (p, q) = Some r) by (apply same_pair_spec in SP; destruct SP as [[-> ->]|[-> ->]]; [exact E|exact (s_sym I _ _ E)]).
      rewrite X, fget_fset by (rewrite app_length; cbn; lia). now destruct (Nat.eq_dec r r).
    + destruct (dget (s (tables n)) (p, q)) as [r'|] eqn:E'; [|reflexivity]. assert (R' := s_ref I _ _ E'). rewrite fget_fset by (rewrite app_length; cbn; lia).
      destruct (Nat.eq_dec r' r) as [->|]; [|apply fget_app; lia]. exfalso. assert (S := s_sep I _ _ _ _ E E'). assert (same_pair p q a b = true) by (apply same_pair_spec; destruct S as [[-> ->]|[-> ->]]; auto). congruence.
  - destruct (same_pair p q a b) eqn:SP; [rewrite <- L; apply fget_app_last|]. destruct (dget (s (tables n)) (p, q)) as [r'|] eqn:E'; [|reflexivity]. assert (R' := s_ref I _ _ E'). apply fget_app. lia.
Qed.
Lemma f_nodes_add n a b x : f_nodes (f_add_cond n a b x) = f_nodes n. Proof. unfold f_nodes. cbn [tables f_add_cond]. now rewrite add_cond_locs. Qed.
Lemma f_cond_sym n a b : SInv n -> f_cond n a b = f_cond n b a.
Proof.
  intros [I _]. unfold f_cond. destruct (dget (s (tables n)) (a, b)) as [r|] eqn:E; [now rewrite (s_sym I _ _ E)|].
  destruct (dget (s (tables n)) (b, a)) as [r|] eqn:E'; [|reflexivity]. apply (s_sym I) in E'. congruence.
Qed.
Lemma f_cond_irr n a : SInv n -> f_cond n a a = of_int 0.
Proof. intros [I _]. unfold f_cond. now rewrite (s_irr I). Qed.
Lemma fstar_val n i star e : SInv n -> dget (node_to_s (tables n)) i = Some star -> In e star -> fget (objects n) (fst e) = f_cond n i (snd e).
Proof. intros [I _] E J. destruct e as [r o]. unfold f_cond. cbn. now rewrite (star_s I _ _ _ E J). Qed.
Lemma fcond_not_star n i star x : SInv n -> dget (node_to_s (tables n)) i = Some star -> ~ In x (map snd star) -> f_cond n i x = of_int 0.
Proof.
  intros [I _] E N. unfold f_cond. destruct (dget (s (tables n)) (i, x)) as [r|] eqn:S; [|reflexivity].
  destruct (s_star I _ _ S) as (l & L & J). rewrite E in L; injection L as <-. apply (in_map snd) in J. contradiction.
Qed.

(** ** removing a node *)
Lemma drop_s t i e t1 x y : dwf (s t) -> drop_resistor t i e = Some t1 -> x <> i -> y <> i -> dget (s t1) (x, y) = dget (s t) (x, y) /\ dwf (s t1).
Proof.
  intros W H X Y. unfold drop_resistor in H. destruct e as [c o].
  assert (G : forall t0, s t0 = s t -> match ddel (s t0) (i, o) with Some s1 => match ddel s1 (o, i) with Some s2 => Some (with_s t0 s2) | None => None end | None => None end = Some t1 -> dget (s t1) (x, y) = dget (s t) (x, y) /\ dwf (s t1)).
  { intros t0 E. rewrite E. unfold ddel. destruct (dmem (s t) (i, o)); [|discriminate]. destruct (dmem (dremove (s t) (i, o)) (o, i)); [|discriminate]. intros Q. injection Q as <-. cbn.
    split; [|now apply dwf_dremove, dwf_dremove]. rewrite !dget_dremove by (try apply dwf_dremove; exact W). des_eq; congruence. }
  destruct (dget (node_to_s t) o) as [l|]; [destruct (list_remove1 l (c, i)); [|discriminate]|]; (eapply G; [|exact H]; reflexivity).
Qed.
Lemma drops_s star : forall t i t1 x y, dwf (s t) -> drop_resistors t i star = Some t1 -> x <> i -> y <> i -> dget (s t1) (x, y) = dget (s t) (x, y).
Proof.
  induction star as [|e r IH]; intros t i t1 x y W H X Y; cbn in H; [now injection H as <-|].
  destruct (drop_resistor t i e) as [t2|] eqn:E; [|discriminate]. destruct (drop_s t i e t2 x y W E X Y) as [Q W2]. rewrite <- Q. now apply (IH _ i).
Qed.
Lemma remove_s t i t1 x y : dwf (s t) -> remove_node t i = Some t1 -> x <> i -> y <> i -> dget (s t1) (x, y) = dget (s t) (x, y).
Proof.
  intros W H X Y. unfold remove_node in H. destruct (dget (node_to_s t) i) as [star|]; [|now injection H as <-].
  destruct (drop_resistors t i star) as [t2|] eqn:E; [|discriminate]. rewrite <- (drops_s star t i t2 x y W E X Y).
  unfold drop_node in H. destruct (ddel (node_to_s t2) i); [|discriminate]. destruct (dget (locations t2) i); [|discriminate].
  destruct (ddel (nodes t2) p), (ddel (locations t2) i); try discriminate. now injection H as <-.
Qed.
Lemma f_remove n i : SInv n -> In i (dkeys (node_to_s (tables n))) -> exists t, remove_node (tables n) i = Some t /\ SInv (FNet t (objects n)) /\ node_gone (tables n) i t /\
  forall x y, x <> i -> y <> i -> f_cond (FNet t (objects n)) x y = f_cond n x y.
Proof.
  intros [I L] J. destruct (remove_node_ok _ I J) as (t & R & G & H & _). exists t. split; [exact R|]. split; [constructor; cbn; [exact (ng_inv G)|now rewrite H]|]. split; [exact G|].
  intros x y X Y. unfold f_cond. cbn. now rewrite (remove_s _ _ _ x y (wf_s I) R X Y).
Qed.
