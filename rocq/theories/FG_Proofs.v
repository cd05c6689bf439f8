From Coq Require Import String Permutation.
From Verif Require Import PyBase PyLib PyStr NX_Model NX_Proofs FG_Model FG_Spec.
Local Open Scope string_scope.
Local Open Scope list_scope.

Section Combine.
Context {pt : Type}.
Notation tri := (@tri pt).

Lemma krev_flip k : krev k = flip k. Proof. now destruct k. Qed.
Lemma flip_flip (k : option string * option string) : flip (flip k) = k. Proof. now destruct k. Qed.
Lemma tri_rev_turned (t : tri) : tri_rev t = turned t. Proof. now destruct t as [[a b] c]. Qed.

Definition keys_inv (p : list hkey) (dk : dict hkey (list tri)) : Prop :=
  dwf dk /\ (forall k, In k (dkeys dk) -> In k p) /\
  (forall k, In k p -> In k (dkeys dk) \/ In (flip k) (dkeys dk)) /\
  (forall k, In k (dkeys dk) -> In (flip k) (dkeys dk) -> k = flip k) /\
  (forall k l, dget dk k = Some l -> l = []).

Lemma keys_step p (dk : dict hkey (list tri)) k : ~ In k p -> keys_inv p dk ->
  keys_inv (p ++ [k]) (if dmem dk (krev k) then dk else dset dk k []).
Proof.
  intros Hk (W & I1 & I2 & I3 & I4). rewrite krev_flip. destruct (dmem dk (flip k)) eqn:E.
  - apply dmem_true in E. split; [exact W|]. split; [intros x Hx; apply in_or_app; auto|]. split; [|auto].
    intros x Hx. apply in_app_or in Hx. destruct Hx as [Hx|[<-|[]]]; auto.
  - assert (E' : ~ In (flip k) (dkeys dk)) by (intros C; apply dmem_true in C; rewrite C in E; discriminate).
    split; [now apply dwf_dset|]. split; [|split; [|split]].
    + intros x Hx. apply dkeys_dset_in in Hx. apply in_or_app. destruct Hx as [->|Hx]; [right; now left|left; auto].
    + intros x Hx. rewrite !dkeys_dset_in. apply in_app_or in Hx. destruct Hx as [Hx|[<-|[]]]; [destruct (I2 _ Hx); auto|auto].
    + intros x Hx Hy. apply dkeys_dset_in in Hx, Hy. destruct Hx as [->|Hx], Hy as [Hy|Hy]; try tauto.
      * now symmetry.
      * subst k. rewrite flip_flip in E'. tauto.
      * auto.
    + intros x l Hl. rewrite dget_dset in Hl. destruct (eq_dec x k); [congruence|eauto].
Qed.
Lemma keys_fold q : forall p dk, NoDup (p ++ q) -> keys_inv p dk ->
  keys_inv (p ++ q) (fold_left (fun dk k => if dmem dk (krev k) then dk else dset dk k []) q dk).
Proof.
  induction q as [|k q IH]; intros p dk HN HI; cbn [fold_left].
  - now rewrite app_nil_r.
  - replace (p ++ k :: q) with ((p ++ [k]) ++ q) by now rewrite <- app_assoc.
    apply IH; [now rewrite <- app_assoc|]. apply keys_step; [|exact HI].
    intros Hk. apply NoDup_remove_2 in HN. apply HN, in_or_app. now left.
Qed.
Lemma dk_keys_inv (d : dict hkey (list tri)) : dwf d -> keys_inv (dkeys d) (dk_keys d).
Proof.
  intros W. apply (keys_fold (dkeys d) []); [exact W|].
  split; [constructor|]. repeat split; cbn; intros; try tauto; try discriminate.
Qed.

(** second loop: [q] is the part already added *)
Definition add_inv (ks : list hkey) (q dk : dict hkey (list tri)) : Prop :=
  dkeys dk = ks /\
  (forall k, In k ks -> k <> flip k -> Permutation (under dk k) (under q k ++ map turned (under q (flip k)))) /\
  (forall k, In k ks -> k = flip k -> under dk k = map turned (under q k)).

Lemma under_snoc (q : dict hkey (list tri)) k v x : ~ In k (dkeys q) ->
  under (q ++ [(k, v)]) x = if eq_dec x k then v else under q x.
Proof.
  intros Hk. unfold under. rewrite <- (dkeys_dset_absent q k v Hk), dget_dset. now destruct (eq_dec x k).
Qed.
Lemma under_dset (q : dict hkey (list tri)) k v x : under (dset q k v) x = if eq_dec x k then v else under q x.
Proof. unfold under. rewrite dget_dset. now destruct (eq_dec x k). Qed.
Lemma under_absent (q : dict hkey (list tri)) k : ~ In k (dkeys q) -> under q k = [].
Proof. intros Hk. apply dget_None in Hk. unfold under. now rewrite Hk. Qed.

Lemma add_step ks q (dk : dict hkey (list tri)) k v :
  (forall x, In x ks -> In (flip x) ks -> x = flip x) -> (In k ks \/ In (flip k) ks) -> ~ In k (dkeys q) ->
  add_inv ks q dk -> exists dk', dk_add (Some dk) (k, v) = Some dk' /\ add_inv ks (q ++ [(k, v)]) dk'.
Proof.
  intros Hone Hin Hk (K & P1 & P2). unfold dk_add. cbn [fst snd]. rewrite krev_flip.
  destruct (dget dk (flip k)) as [l|] eqn:E.
  - pose proof (dget_Some_key _ _ E) as Hf. rewrite K in Hf.
    assert (U : under dk (flip k) = l) by (unfold under; now rewrite E).
    eexists. split; [reflexivity|]. split; [rewrite dkeys_dset_present; [exact K|now rewrite K]|].
    rewrite (map_ext tri_rev turned tri_rev_turned). split; intros x Hx Hxx; rewrite under_dset, !under_snoc by exact Hk.
    + destruct (eq_dec x (flip k)) as [->|N].
      * rewrite flip_flip in *. destruct (eq_dec (flip k) k) as [C|N]; [congruence|].
        destruct (eq_dec k k); [|congruence].
        rewrite <- U, (P1 _ Hf) by now rewrite flip_flip. rewrite flip_flip.
        rewrite <- app_assoc. apply Permutation_app_head. now rewrite (under_absent q k Hk).
      * destruct (eq_dec x k) as [->|N2].
        -- exfalso. now apply N, Hone.
        -- destruct (eq_dec (flip x) k) as [<-|N3]; [now rewrite flip_flip in N|auto].
    + destruct (eq_dec x (flip k)) as [->|N].
      * rewrite flip_flip in Hxx. destruct (eq_dec (flip k) k) as [C|N]; [|congruence].
        rewrite <- U, (P2 _ Hf) by (rewrite flip_flip; congruence). rewrite (under_absent q (flip k)) by congruence. reflexivity.
      * destruct (eq_dec x k) as [->|N2]; [congruence|auto].
  - apply dget_None in E. rewrite K in E. destruct Hin as [Hi|Hi]; [|tauto].
    assert (Hd : In k (dkeys dk)) by now rewrite K.
    destruct (dkeys_dget _ _ Hd) as [l El]. rewrite El.
    assert (U : under dk k = l) by (unfold under; now rewrite El).
    eexists. split; [reflexivity|]. split; [rewrite dkeys_dset_present; [exact K|exact Hd]|].
    split; intros x Hx Hxx; rewrite under_dset, !under_snoc by exact Hk.
    + destruct (eq_dec x k) as [->|N].
      * destruct (eq_dec (flip k) k) as [C|N]; [congruence|].
        rewrite <- U, (P1 _ Hi Hxx). rewrite (under_absent q k Hk). cbn [app]. apply Permutation_app_comm.
      * destruct (eq_dec (flip x) k) as [<-|N3]; [|auto]. rewrite flip_flip in E. tauto.
    + destruct (eq_dec x k) as [->|N]; [congruence|auto].
Qed.
Lemma add_fold ks q' : forall q (dk : dict hkey (list tri)),
  (forall x, In x ks -> In (flip x) ks -> x = flip x) -> (forall k, In k (dkeys q') -> In k ks \/ In (flip k) ks) ->
  dwf (q ++ q') -> add_inv ks q dk -> exists dk', fold_left dk_add q' (Some dk) = Some dk' /\ add_inv ks (q ++ q') dk'.
Proof.
  induction q' as [|[k v] q' IH]; intros q dk H1 H2 W HI; cbn [fold_left].
  - exists dk. rewrite app_nil_r. auto.
  - assert (Hk : ~ In k (dkeys q)).
    { unfold dwf, dkeys in W. rewrite map_app in W. cbn in W. apply NoDup_remove_2 in W.
      intros C. apply W, in_or_app. now left. }
    destruct (@add_step ks q dk k v H1 (H2 k (or_introl eq_refl)) Hk HI) as (dk' & E & HI').
    rewrite E. replace (q ++ (k, v) :: q') with ((q ++ [(k, v)]) ++ q') by now rewrite <- app_assoc.
    apply IH; [exact H1|intros x Hx; apply H2; now right| |exact HI'].
    now rewrite <- app_assoc.
Qed.
Lemma combine_ok (d : dict hkey (list tri)) : dwf d -> exists r, combine_diel d = Some r /\ combined d r.
Proof.
  intros W. destruct (dk_keys_inv d W) as (W1 & I1 & I2 & I3 & I4).
  destruct (@add_fold (dkeys (dk_keys d)) d [] (dk_keys d) I3 I2 W) as (r & E & K & P1 & P2).
  { split; [reflexivity|]. assert (N : forall k, under (dk_keys d) k = []).
    { intros k. unfold under. destruct (dget (dk_keys d) k) eqn:E; [eauto|reflexivity]. }
    split; intros k _ _; rewrite N; constructor. }
  exists r. split; [exact E|]. unfold combined. rewrite K. auto 8.
Qed.

(** the surface of a material is not changed by combining *)
Lemma turned_turned (t : tri) : turned (turned t) = t. Proof. now destruct t as [[a b] c]. Qed.
Lemma map_turned2 (l : list tri) : map turned (map turned l) = l.
Proof. induction l; cbn; [reflexivity|]. now rewrite turned_turned, IHl. Qed.

Definition side (m : string) (e : hkey * list tri) : list tri :=
  if eqb (fst (fst e)) (Some m) then snd e else if eqb (snd (fst e)) (Some m) then map tri_rev (snd e) else [].
Lemma side_app m k a b : side m (k, a ++ b) = side m (k, a) ++ side m (k, b).
Proof. unfold side. cbn. destruct (eqb (fst k) (Some m)); [reflexivity|]. destruct (eqb (snd k) (Some m)); [apply map_app|reflexivity]. Qed.
Lemma side_flip m k v : k <> flip k -> side m (flip k, map tri_rev v) = side m (k, v).
Proof.
  destruct k as [a b]. unfold side. cbn. intros N.
  rewrite !(map_ext tri_rev turned tri_rev_turned), map_turned2.
  destruct (eqb b (Some m)) eqn:E1, (eqb a (Some m)) eqn:E2; try reflexivity.
  apply eqb_eq in E1; apply eqb_eq in E2. congruence.
Qed.
Lemma side_dset m (dk : dict hkey (list tri)) k l w : dget dk k = Some l ->
  Permutation (flat_map (side m) (dset dk k (l ++ w))) (flat_map (side m) dk ++ side m (k, w)).
Proof.
  induction dk as [|[k' v'] dk IH]; cbn [dget dset flat_map]; [discriminate|].
  destruct (eq_dec k k') as [<-|N]; intros E.
  - injection E as ->. cbn [flat_map]. rewrite side_app, <- !app_assoc. apply Permutation_app_head, Permutation_app_comm.
  - cbn [flat_map]. rewrite (IH E), app_assoc. reflexivity.
Qed.
Lemma side_fold m q : forall (dk r : dict hkey (list tri)), (forall k, In k (dkeys q) -> k <> flip k) ->
  fold_left dk_add q (Some dk) = Some r -> Permutation (flat_map (side m) r) (flat_map (side m) dk ++ flat_map (side m) q).
Proof.
  assert (HN : forall l, fold_left dk_add l (@None (dict hkey (list tri))) = None) by (induction l; cbn; auto).
  induction q as [|[k v] q IH]; intros dk r Hq; cbn [fold_left flat_map].
  - intros [= ->]. now rewrite app_nil_r.
  - cbn [dk_add fst snd]. rewrite krev_flip. destruct (dget dk (flip k)) as [l|] eqn:E; [|destruct (dget dk k) as [l|] eqn:E2].
    + intros H. apply IH in H; [|intros; apply Hq; now right]. rewrite H, (side_dset m _ _ _ _ E), side_flip by (apply Hq; now left).
      now rewrite <- app_assoc.
    + intros H. apply IH in H; [|intros; apply Hq; now right]. rewrite H, (side_dset m _ _ _ _ E2). now rewrite <- app_assoc.
    + rewrite HN. discriminate.
Qed.
Lemma combine_side m (d r : dict hkey (list tri)) : dwf d -> (forall k, In k (dkeys d) -> k <> flip k) -> combine_diel d = Some r ->
  Permutation (flat_map (side m) r) (flat_map (side m) d).
Proof.
  intros W Hd H. apply (side_fold m) in H; [|exact Hd]. rewrite H.
  destruct (dk_keys_inv d W) as (W1 & _ & _ & _ & I4).
  replace (flat_map (side m) (dk_keys d)) with (@nil tri); [reflexivity|].
  symmetry. clear - W1 I4. assert (A : forall k l, In (k, l) (dk_keys d) -> l = []) by (intros k l Hl; eapply I4, In_dget; eauto).
  induction (dk_keys d) as [|[k l] t IH]; [reflexivity|]. cbn [flat_map].
  rewrite (A k l) by now left. rewrite IH.
  - unfold side. cbn. now destruct (eqb (fst k) (Some m)), (eqb (snd k) (Some m)).
  - now inversion W1.
  - intros k' l' Hl. assert (Hl2 := dget_In _ _ Hl). eapply A. right. exact Hl2.
  - intros k' l' Hl. eapply A. right. exact Hl.
Qed.
End Combine.

(** ** files *)
Section Files.
Context {pt : Type}.
Notation tri := (@tri pt).
Notation entry := (@geo pt * lline)%type.
Variables (prefix : string) (k_void : Qc) (materials : dict string Qc) (max_len : option nat) (hash : string -> string).
Notation W_diel := (@write_diel pt prefix k_void materials).
Notation W_net := (@write_net pt prefix k_void materials max_len hash).
Notation W_nets := (@write_nets pt prefix k_void materials max_len hash).
Notation perm_ := (permittivity k_void materials).

Lemma k_of_perm o k : k_of k_void materials o = Some k -> perm_ o k.
Proof.
  destruct o as [[|c s]|]; cbn; intros E.
  - injection E as <-. constructor.
  - apply dget_In in E. constructor; [discriminate|exact E].
  - injection E as <-. constructor.
Qed.
Definition numbered (n : nat) (e : @geo pt) : Prop := exists s, g_name e = (prefix ++ nat_str n ++ "_" ++ s)%string.

Lemma write_diel_spec d : forall n l, W_diel n d = Some l ->
  Forall2 (diel_file k_void materials) l (filter has_tris d) /\
  forall i e, nth_error l i = Some e -> g_num (fst e) = S (n + i) /\ numbered (S (n + i)) (fst e).
Proof.
  induction d as [|[k data] d IH]; intros n l; cbn [write_diel filter].
  - intros [= <-]. split; [constructor|]. intros [|i] e; discriminate.
  - unfold has_tris at 1, nonempty. cbn [snd]. destruct data as [|t data]; [apply IH|].
    destruct (k_of k_void materials (fst k)) as [ko|] eqn:E1; [|discriminate].
    destruct (k_of k_void materials (snd k)) as [ki|] eqn:E2; [|discriminate].
    destruct (W_diel (S n) d) as [l'|] eqn:E; [|discriminate]. intros [= <-].
    apply IH in E. destruct E as [F G]. split.
    + constructor; [|exact F]. unfold diel_file. cbn. repeat split. exists ko, ki. auto using k_of_perm.
    + intros [|i] e; cbn [nth_error].
      * intros [= <-]. cbn. rewrite Nat.add_0_r. split; [reflexivity|]. eexists. cbn. reflexivity.
      * intros H. apply G in H. now replace (S (n + S i)) with (S (S n + i)) by lia.
Qed.

Lemma cond_name_numbered n o nn : exists s, cond_name prefix max_len hash n o nn = (prefix ++ nat_str n ++ "_" ++ s)%string.
Proof.
  unfold cond_name. destruct max_len as [m|]; [|eexists; reflexivity].
  match goal with |- context [if ?b then _ else _] => destruct b end; eexists; reflexivity.
Qed.

Definition plus_ok (l : list entry) : Prop := forall l1 e l2, l = l1 ++ e :: l2 ->
  g_rename (fst e) = negb (plus_of e) /\
  (plus_of e = true -> exists e' l3, l2 = e' :: l3 /\ g_cond (fst e') = g_cond (fst e)) /\
  (plus_of e = false -> forall e', In e' l2 -> g_cond (fst e') <> g_cond (fst e)).
Lemma plus_ok_nil : plus_ok [].
Proof. intros [|x l1] e l2; discriminate. Qed.
Lemma plus_ok_cons e l : (g_rename (fst e) = negb (plus_of e) /\
  (plus_of e = true -> exists e' l3, l = e' :: l3 /\ g_cond (fst e') = g_cond (fst e)) /\
  (plus_of e = false -> forall e', In e' l -> g_cond (fst e') <> g_cond (fst e))) -> plus_ok l -> plus_ok (e :: l).
Proof.
  intros H HP [|x l1] e' l2 E; injection E as <- E.
  - subst l2. exact H.
  - now apply (HP l1 e' l2).
Qed.

(** the files of one net, followed by files of other nets *)
Lemma write_net_spec nn cn rest : forall n l, (n = n) -> forall a, W_net nn cn n l = Some a ->
  Forall2 (fun e s => cond_file k_void materials e ((nn, fst s), snd s)) a l /\
  (forall i e, nth_error a i = Some e -> g_num (fst e) = cn /\ numbered (S (n + i)) (fst e)) /\
  ((forall e, In e rest -> g_cond (fst e) <> Some nn) -> plus_ok rest -> plus_ok (a ++ rest)).
Proof.
  intros n l _. revert n. induction l as [|[o data] l IH]; intros n a; cbn [write_net].
  - intros [= <-]. split; [constructor|]. split; [intros [|i] e; discriminate|auto].
  - destruct (k_of k_void materials o) as [ko|] eqn:E1; [|discriminate].
    destruct (W_net nn cn (S n) l) as [t|] eqn:E; [|discriminate]. intros [= <-].
    apply IH in E. destruct E as (F & G & P). split; [|split].
    + constructor; [|exact F]. unfold cond_file. cbn. repeat split. exists ko. eexists. split; [reflexivity|]. now apply k_of_perm.
    + intros [|i] e; cbn [nth_error].
      * intros [= <-]. cbn. rewrite Nat.add_0_r. split; [reflexivity|].
        destruct (cond_name_numbered (S n) (show o) nn) as [s Hs]. exists s. exact Hs.
      * intros H. apply G in H. now replace (S (n + S i)) with (S (S n + i)) by lia.
    + intros HR HPr. cbn [app]. apply plus_ok_cons; [|now apply P].
      cbn. rewrite negb_involutive. split; [reflexivity|]. destruct l as [|s l].
      * inversion F; subst t. cbn. split; [discriminate|]. intros _ e' He. now apply HR.
      * inversion F as [|e' s' t' l' (C1 & C2 & C3) F' Et]; subst. cbn [nonempty negb]. split; [|discriminate]. intros _.
        exists e', (t' ++ rest). split; [reflexivity|]. exact C2.
Qed.

Definition flat (g : dict string (list (option string * list tri))) : list ((string * option string) * list tri) :=
  flat_map (fun e => map (fun s => ((fst e, fst s), snd s)) (snd e)) g.

Lemma Forall2_map_r {A B C} (R : A -> C -> Prop) (f : B -> C) l m : Forall2 (fun a b => R a (f b)) l m -> Forall2 R l (map f m).
Proof. induction 1; cbn; constructor; auto. Qed.

Lemma write_nets_spec g : forall cn n b, dwf g -> (forall k l, In (k, l) g -> l <> []) -> W_nets cn n g = Some b ->
  Forall2 (cond_file k_void materials) b (flat g) /\
  (forall i e, nth_error b i = Some e -> numbered (S (n + i)) (fst e) /\ (cn < g_num (fst e))%nat) /\
  (forall e e', In e b -> In e' b -> (g_num (fst e) = g_num (fst e') <-> g_cond (fst e) = g_cond (fst e'))) /\
  plus_ok b.
Proof.
  induction g as [|[nn l] g IH]; intros cn n b W Hne; cbn [write_nets].
  - intros [= <-]. split; [constructor|]. split; [intros [|i] e; discriminate|]. split; [intros e e' []|apply plus_ok_nil].
  - destruct (W_net nn (S cn) n l) as [a|] eqn:E1; [|discriminate].
    destruct (W_nets (S cn) (n + List.length l) g) as [b'|] eqn:E2; [|discriminate]. intros [= <-].
    inversion W as [|x y Hnn W' Exy]; subst x y.
    apply IH in E2; [|exact W'|intros k l' Hl; eapply Hne; right; exact Hl]. destruct E2 as (F2 & G2 & N2 & P2).
    destruct (@write_net_spec nn (S cn) b' n l eq_refl a E1) as (F1 & G1 & P1).
    assert (La : List.length a = List.length l) by (clear -F1; induction F1; cbn; congruence).
    assert (C1 : forall e, In e a -> g_cond (fst e) = Some nn).
    { clear - F1. induction F1 as [|e s a l (A & B & _) F IHF]; intros x []; [now subst|auto]. }
    assert (C2 : forall e, In e b' -> g_cond (fst e) <> Some nn).
    { intros e He C. assert (X : exists s, In s (flat g) /\ cond_file k_void materials e s).
      { clear - F2 He. induction F2 as [|e' s a l R F IHF]; [destruct He|]. destruct He as [->|He]; [exists s; split; [now left|exact R]|].
        destruct (IHF He) as (s' & A & B). exists s'. split; [now right|exact B]. }
      destruct X as (s & Hs & (_ & B & _)). rewrite C in B. injection B as B.
      unfold flat in Hs. apply in_flat_map in Hs. destruct Hs as ([k q] & Hk & Hs). apply in_map_iff in Hs. destruct Hs as (z & <- & _).
      cbn in B. subst k. apply Hnn. change nn with (fst (nn, q)). now apply in_map. }
    assert (N1 : forall e, In e a -> g_num (fst e) = S cn).
    { intros e He. apply In_nth_error in He. destruct He as [i Hi]. now apply G1 in Hi. }
    assert (N3 : forall e, In e b' -> (S cn < g_num (fst e))%nat).
    { intros e He. apply In_nth_error in He. destruct He as [i Hi]. now apply G2 in Hi. }
    split; [|split; [|split]].
    + cbn [flat flat_map]. apply Forall2_app; [|exact F2]. cbn [fst snd]. now apply Forall2_map_r.
    + intros i e Hi. destruct (Nat.ltb_spec i (List.length a)).
      * rewrite nth_error_app1 in Hi by assumption. apply G1 in Hi. destruct Hi as [A B]. split; [exact B|lia].
      * rewrite nth_error_app2 in Hi by assumption. apply G2 in Hi. destruct Hi as [A B].
        replace (S (n + i)) with (S (n + List.length l + (i - List.length a))) by lia. split; [exact A|lia].
    + intros e e' He He'. apply in_app_or in He, He'. destruct He as [He|He], He' as [He'|He'].
      * rewrite (N1 _ He), (N1 _ He'), (C1 _ He), (C1 _ He'). tauto.
      * rewrite (N1 _ He), (C1 _ He). specialize (N3 _ He'). specialize (C2 _ He'). split; [lia|congruence].
      * rewrite (N1 _ He'), (C1 _ He'). specialize (N3 _ He). specialize (C2 _ He). split; [lia|congruence].
      * now apply N2.
    + now apply P1.
Qed.

(** grouping by net *)
Lemma group_spec (d : dict (string * option string) (list tri)) :
  dwf (group d) /\ (forall k l, In (k, l) (group d) -> l <> []) /\ Permutation (flat (group d)) (filter has_tris d).
Proof.
  unfold group. assert (G : forall d g, dwf g -> (forall k l, In (k, l) g -> l <> []) ->
    let r := fold_left group_add d g in dwf r /\ (forall k l, In (k, l) r -> l <> []) /\ Permutation (flat r) (flat g ++ filter has_tris d)).
  { clear d. induction d as [|[[nn o] data] d IH]; intros g W Hne; cbn [fold_left].
    - cbn. rewrite app_nil_r. auto.
    - destruct data as [|t data].
      + apply IH; assumption.
      + set (g' := group_add g (nn, o, t :: data)).
        assert (A : dwf g' /\ (forall k l, In (k, l) g' -> l <> []) /\ Permutation (flat g') (flat g ++ [((nn, o), t :: data)])).
        { unfold g', group_add. cbn [fst snd nonempty]. split; [now apply dwf_dset|]. split.
          - intros k l Hl. apply In_dget in Hl; [|now apply dwf_dset]. rewrite dget_dset in Hl. destruct (eq_dec k nn).
            + injection Hl as <-. destruct (dget g nn) as [l|]; [destruct l|]; discriminate.
            + apply dget_In in Hl. eauto.
          - clear. induction g as [|[k l] g IH]; [cbn; reflexivity|].
            cbn [dget dset]. destruct (eq_dec nn k) as [<-|N].
            + cbn [flat flat_map fst snd]. rewrite map_app, <- !app_assoc. cbn [map fst snd].
              apply Permutation_app_head, Permutation_app_comm.
            + cbn [flat flat_map]. unfold flat in IH. rewrite IH, app_assoc. reflexivity. }
        destruct A as (A1 & A2 & A3). destruct (IH g' A1 A2) as (B1 & B2 & B3). split; [exact B1|]. split; [exact B2|].
        rewrite B3, A3, <- app_assoc. reflexivity. }
  apply (G d []); [constructor|intros k l []].
Qed.

(** ** names *)
Lemma string_of_uint_digits u : all_chars isdigit (DecimalString.NilEmpty.string_of_uint u) = true.
Proof. induction u; cbn; auto. Qed.
Lemma nat_str_digits n : all_chars isdigit (nat_str n) = true.
Proof. apply string_of_uint_digits. Qed.
Lemma numbered_inj a b x y : numbered a x -> numbered b y -> g_name x = g_name y -> a = b.
Proof.
  intros [s ->] [t ->] E. apply (f_equal (drop_prefix prefix)) in E. rewrite !drop_prefix_app in E. injection E as E.
  apply (f_equal span_digits) in E. rewrite !span_digits_app in E; [|apply nat_str_digits|reflexivity|apply nat_str_digits|reflexivity].
  injection E as E _. now apply nat_str_inj.
Qed.
End Files.
