From Coq Require Import String ZArith.
From Verif Require Import PyBase PyLib ER_Model UT_Model LV_Model LV_Spec.
Local Open Scope list_scope.

(** ** general lemmas *)
Lemma comp_dict_get {A K V} `{EqDec K} (key : A -> K) (val : A -> V) l k :
  dget (comp_dict key val l) k = option_map val (last_such (fun x => eqb (key x) k) l).
Proof.
  unfold comp_dict, last_such. induction l as [|x l IH] using rev_ind; [reflexivity|].
  rewrite fold_left_app, rev_app_distr. simpl. rewrite dget_dset, IH.
  unfold eqb. destruct (eq_dec k (key x)), (eq_dec (key x) k); simpl; congruence.
Qed.
Lemma last_such_In {A} (P : A -> bool) l x : last_such P l = Some x -> In x l /\ P x = true.
Proof. unfold last_such. intros E. apply find_some in E. rewrite <- in_rev in E. exact E. Qed.
Lemma last_such_None {A} (P : A -> bool) l : last_such P l = None <-> forall x, In x l -> P x = false.
Proof.
  unfold last_such. split.
  - intros E x I. apply (find_none _ _ E). apply in_rev in I. exact I.
  - intros E. destruct (find P (rev l)) eqn:F; [|reflexivity]. apply find_some in F. destruct F as [I T].
    apply in_rev in I. rewrite (E _ I) in T. discriminate.
Qed.

Section Group.
Context {A K V : Type} `{EqDec K}.
Variables (key : A -> K) (val : A -> V).
Definition group (l : list A) (d : dict K (list V)) : dict K (list V) := fold_left (fun d e => dappend d (key e) (val e)) l d.
Lemma group_get l : forall d k,
  dget (group l d) k =
  match dget d k, map val (filter (fun e => eqb (key e) k) l) with
  | Some v, vs => Some (v ++ vs)
  | None, [] => None
  | None, vs => Some vs
  end.
Proof.
  induction l as [|x l IH]; intros d k; simpl; [destruct (dget d k); rewrite ?app_nil_r; reflexivity|].
  unfold group in *. simpl. rewrite IH. unfold dappend at 1. rewrite dget_dset. unfold eqb.
  destruct (eq_dec k (key x)) as [->|N].
  - destruct (eq_dec (key x) (key x)); [|congruence]. simpl.
    destruct (dget d (key x)) as [v|]; simpl; [rewrite <- app_assoc|]; reflexivity.
  - destruct (eq_dec (key x) k); [congruence|reflexivity].
Qed.
Lemma distinct_In (l : list K) x : In x (distinct l) <-> In x l.
Proof.
  induction l as [|y l IH]; simpl; [tauto|]. rewrite filter_In, IH, negb_true_iff.
  unfold eqb. destruct (eq_dec x y) as [->|N]; intuition congruence.
Qed.
Lemma distinct_snoc (l : list K) x : distinct (l ++ [x]) = if in_dec eq_dec x l then distinct l else distinct l ++ [x].
Proof.
  induction l as [|y l IH]; simpl; [reflexivity|]. rewrite IH.
  destruct (in_dec eq_dec x l) as [I|I].
  - destruct (in_dec eq_dec x l) as [I'|I']; [|contradiction].
    destruct (eq_dec y x); reflexivity.
  - destruct (in_dec eq_dec x l) as [I'|I']; [contradiction|].
    rewrite filter_app. simpl. unfold eqb at 2. destruct (eq_dec x y), (eq_dec y x); simpl; try congruence; rewrite ?app_nil_r; reflexivity.
Qed.
Lemma distinct_NoDup (l : list K) : NoDup (distinct l).
Proof.
  induction l as [|y l IH]; simpl; constructor.
  - rewrite filter_In, eqb_refl. intros [_ ?]; discriminate.
  - apply NoDup_filter. exact IH.
Qed.
Lemma group_keys l : dkeys (group l []) = distinct (map key l).
Proof.
  unfold group. induction l as [|x l IH] using rev_ind; [reflexivity|].
  rewrite fold_left_app, map_app. simpl. rewrite distinct_snoc, <- IH. unfold dappend at 1.
  assert (W : In (key x) (map key l) <-> In (key x) (dkeys (fold_left (fun d e => dappend d (key e) (val e)) l []))) by (rewrite IH; symmetry; apply distinct_In).
  destruct (in_dec eq_dec (key x) (map key l)) as [I|I].
  - apply dkeys_dset_present, W, I.
  - rewrite dkeys_dset_absent by (rewrite <- W; exact I). unfold dkeys. rewrite map_app. reflexivity.
Qed.
Lemma group_wf l : dwf (group l []).
Proof. unfold dwf. rewrite group_keys. apply distinct_NoDup. Qed.
End Group.

Lemma all_some_Some {A} (l : list (option A)) r : all_some l = Some r <-> l = map Some r.
Proof.
  revert r; induction l as [|[a|] l IH]; intros r; simpl.
  - destruct r; split; intros E; simpl in *; congruence.
  - destruct (all_some l) as [s|] eqn:E.
    + pose proof (proj1 (IH s) eq_refl) as ->. split; intros F; [injection F as <-; reflexivity|].
      destruct r as [|b r]; simpl in F; [discriminate|]. injection F as <- F. apply IH in F. congruence.
    + split; [discriminate|]. destruct r as [|b r]; simpl; [discriminate|]. intros F. injection F as <- F. apply IH in F. discriminate.
  - split; [discriminate|]. destruct r; discriminate.
Qed.
Lemma all_some_None {A} (l : list (option A)) : all_some l = None <-> In None l.
Proof.
  induction l as [|[a|] l IH]; simpl.
  - split; [discriminate|tauto].
  - destruct (all_some l); split; intros E; try discriminate; [|right; apply IH; reflexivity|reflexivity].
    destruct E as [E|E]; [discriminate|]. apply IH in E. discriminate.
  - split; [left; reflexivity|reflexivity].
Qed.
Lemma all_some_map {A B} (f : A -> option B) (g : A -> B) l : (forall x, In x l -> f x = Some (g x)) -> all_some (map f l) = Some (map g l).
Proof. intros E. apply all_some_Some. rewrite map_map. apply map_ext_in. exact E. Qed.

(** ** the layer map *)
Section Context.
Variables (t : tech) (blackbox : bool) (db : lvsdb).
Hypothesis wf : db_wf db.

Lemma by_name name : dget (computed_layer_info_by_name t) name = info_of t name.
Proof. unfold computed_layer_info_by_name, info_of. rewrite comp_dict_get. destruct (last_such _ _); reflexivity. Qed.
Lemma pair_by_name name : dget (gds_pair_for_computed_layer_name t) name = option_map cl_pair (info_of t name).
Proof. unfold gds_pair_for_computed_layer_name, info_of. apply comp_dict_get. Qed.
Lemma canon_get p : dget (canonical_layer_name_by_gds_pair t) p = canon_of t p.
Proof. unfold canonical_layer_name_by_gds_pair, canon_of. apply comp_dict_get. Qed.
Lemma info_by_pair p : dget (computed_layer_info_by_gds_pair t) p = last_such (fun c => eqb (cl_pair c) p) (computed t).
Proof. unfold computed_layer_info_by_gds_pair. rewrite comp_dict_get. destruct (last_such _ _); reflexivity. Qed.
Lemma left_out_hidden c : left_out blackbox c = hidden blackbox c.
Proof. unfold left_out, hidden. destruct (cl_kind c), blackbox; reflexivity. Qed.

Definition mapped (l : lvslayer) : bool :=
  match info_of t (lv_name l) with
  | Some c => negb (hidden blackbox c)
  | None => match lv_info l with Some _ => true | None => false end
  end.
Definition layer_pair (l : lvslayer) : option gds :=
  match info_of t (lv_name l) with Some c => Some (cl_pair c) | None => lv_info l end.
Lemma map_step_eq st l : map_step t blackbox st l =
  match layer_pair l with
  | Some p => if mapped l then (fst st ++ [(lv_index l, p)], dset (snd st) (lv_index l) (List.length (fst st))) else st
  | None => st
  end.
Proof.
  unfold map_step, layer_pair, mapped. rewrite by_name, pair_by_name.
  destruct (info_of t (lv_name l)) as [c|]; simpl; [rewrite left_out_hidden; destruct (hidden blackbox c); reflexivity|].
  destruct (lv_info l); reflexivity.
Qed.
Definition map_ok (st : list (nat * gds) * dict nat nat) (seen : list lvslayer) : Prop :=
  (forall i li, dget (snd st) i = Some li -> exists l p, In l seen /\ lv_index l = i /\ layer_pair l = Some p /\ nth_error (fst st) li = Some (i, p)) /\
  (forall l, In l seen -> mapped l = true -> dget (snd st) (lv_index l) <> None) /\
  (forall i, dget (snd st) i <> None -> exists l, In l seen /\ mapped l = true /\ lv_index l = i).
Lemma map_ok_step st seen l : map_ok st seen -> map_ok (map_step t blackbox st l) (seen ++ [l]).
Proof.
  intros (A & B & C). rewrite map_step_eq.
  destruct (layer_pair l) as [p|] eqn:P.
  - destruct (mapped l) eqn:M.
    + split; [|split]; simpl.
      * intros i li E. rewrite dget_dset in E. destruct (eq_dec i (lv_index l)) as [->|N].
        -- injection E as <-. exists l, p. rewrite in_app_iff. simpl. repeat split; auto.
           rewrite nth_error_app2 by lia. rewrite Nat.sub_diag. reflexivity.
        -- destruct (A _ _ E) as (l' & p' & I & Ei & Ep & Nt). exists l', p'. rewrite in_app_iff. repeat split; auto.
           rewrite nth_error_app1; [exact Nt|]. apply nth_error_Some. congruence.
      * intros l' I M'. rewrite dget_dset. destruct (eq_dec (lv_index l') (lv_index l)); [discriminate|].
        apply in_app_iff in I. destruct I as [I|[->|[]]]; [auto|congruence].
      * intros i E. rewrite dget_dset in E. destruct (eq_dec i (lv_index l)) as [->|N].
        -- exists l. rewrite in_app_iff. simpl. auto.
        -- destruct (C _ E) as (l' & I & M' & Ei). exists l'. rewrite in_app_iff. auto.
    + split; [|split].
      * intros i li E. destruct (A _ _ E) as (l' & p' & I & Q). exists l', p'. rewrite in_app_iff. tauto.
      * intros l' I M'. apply in_app_iff in I. destruct I as [I|[->|[]]]; [auto|congruence].
      * intros i E. destruct (C _ E) as (l' & I & M' & Ei). exists l'. rewrite in_app_iff. auto.
  - split; [|split].
    + intros i li E. destruct (A _ _ E) as (l' & p' & I & Q). exists l', p'. rewrite in_app_iff. tauto.
    + intros l' I M'. apply in_app_iff in I. destruct I as [I|[->|[]]]; [auto|].
      exfalso. unfold layer_pair, mapped in *. destruct (info_of t (lv_name l')); [discriminate|]. rewrite P in M'. discriminate.
    + intros i E. destruct (C _ E) as (l' & I & M' & Ei). exists l'. rewrite in_app_iff. auto.
Qed.
Lemma layer_map_ok : map_ok (layer_map t blackbox db) (db_layers db).
Proof.
  unfold layer_map. assert (G : forall ls st seen, map_ok st seen -> map_ok (fold_left (map_step t blackbox) ls st) (seen ++ ls)).
  { induction ls as [|l ls IH]; intros st seen Ok; simpl; [rewrite app_nil_r; exact Ok|].
    replace (seen ++ l :: ls) with ((seen ++ [l]) ++ ls) by (rewrite <- app_assoc; reflexivity). apply IH, map_ok_step, Ok. }
  apply (G (db_layers db) ([], []) []). split; [|split]; simpl; intros; [discriminate|tauto|congruence].
Qed.
Lemma index_inj l l' : In l (db_layers db) -> In l' (db_layers db) -> lv_index l = lv_index l' -> l = l'.
Proof.
  unfold db_wf in wf. revert wf. induction (db_layers db) as [|a r IH]; simpl; [tauto|].
  intros N. inversion N as [|? ? Nin Nd]; subst. intros [->|I] [->|I'] E; auto.
  - exfalso. apply Nin. rewrite E. apply in_map, I'.
  - exfalso. apply Nin. rewrite <- E. apply in_map, I.
Qed.
(** what the layer map says about a layer of the database *)
Lemma layer_map_get l : In l (db_layers db) ->
  if mapped l then exists li p, dget (snd (layer_map t blackbox db)) (lv_index l) = Some li /\ layer_pair l = Some p /\
                               nth_error (fst (layer_map t blackbox db)) li = Some (lv_index l, p)
  else dget (snd (layer_map t blackbox db)) (lv_index l) = None.
Proof.
  intros I. destruct layer_map_ok as (A & B & C). destruct (mapped l) eqn:M.
  - destruct (dget (snd (layer_map t blackbox db)) (lv_index l)) as [li|] eqn:E; [|destruct (B l I M E)].
    destruct (A _ _ E) as (l' & p & I' & Ei & Ep & Nt). assert (l' = l) by (apply index_inj; auto). subst l'. eauto 6.
  - destruct (dget (snd (layer_map t blackbox db)) (lv_index l)) as [li|] eqn:E; [|reflexivity].
    destruct (C (lv_index l)) as (l' & I' & M' & Ei); [rewrite E; discriminate|].
    assert (l' = l) by (apply index_inj; auto). congruence.
Qed.
Lemma annotated_get l li : In l (db_layers db) -> dget (snd (layer_map t blackbox db)) (lv_index l) = Some li ->
  annotated t blackbox db li = db_shapes db (lv_index l).
Proof.
  intros I E. destruct layer_map_ok as (A & _ & _). destruct (A _ _ E) as (l' & p & _ & _ & _ & Nt).
  unfold annotated. rewrite Nt. reflexivity.
Qed.

(** ** extracted layers *)
Definition kept_entry (e : nat * lvslayer) : list (gds * xlayer) :=
  match info_of t (lv_name (snd e)) with
  | Some c => if has_shapes db (snd e) && negb (hidden blackbox c)
              then [(cl_pair c, XLayer (fst e) (lv_name (snd e)) (cl_pair c) (db_shapes db (lv_index (snd e))))] else []
  | None => []
  end.
Definition unknown_entry (e : nat * lvslayer) : list xlayer :=
  if unknown t db (snd e) then [XLayer (fst e) (lv_name (snd e)) (1000 + Z.of_nat (fst e), 20)%Z (db_shapes db (lv_index (snd e)))] else [].
Definition add_kept (d : dict gds (list xlayer)) (l : list (gds * xlayer)) := group fst snd l d.
Lemma extract_step_eq st e : In (snd e) (db_layers db) ->
  extract_step t blackbox db st e = (add_kept (fst st) (kept_entry e), snd st ++ unknown_entry e).
Proof.
  destruct e as [idx l]; simpl; intros I. unfold kept_entry, unknown_entry, unknown, has_shapes; simpl. rewrite by_name.
  pose proof (layer_map_get l I) as G. unfold mapped in G.
  destruct (info_of t (lv_name l)) as [c|] eqn:F.
  - destruct (hidden blackbox c) eqn:Hd; simpl in G.
    + rewrite G. rewrite !andb_false_r. simpl. rewrite app_nil_r. destruct st; reflexivity.
    + destruct G as (li & p & E & Ep & Nt). rewrite E, (annotated_get l li I E).
      destruct (db_shapes db (lv_index l)) as [|s ss]; simpl; [rewrite app_nil_r; destruct st; reflexivity|].
      rewrite left_out_hidden, Hd. simpl. rewrite app_nil_r. f_equal. unfold add_kept, group; simpl. unfold dappend.
      destruct (dget (fst st) (cl_pair c)); reflexivity.
  - destruct (lv_info l) as [q|] eqn:Q; simpl in G.
    + destruct G as (li & p & E & Ep & Nt). rewrite E, (annotated_get l li I E).
      destruct (db_shapes db (lv_index l)) as [|s ss]; simpl; [rewrite app_nil_r|]; destruct st; reflexivity.
    + rewrite G. rewrite andb_false_r. simpl. rewrite app_nil_r. destruct st; reflexivity.
Qed.
Lemma enumerate_from {A} (l : list A) : forall n e, In e (combine (seq n (List.length l)) l) -> In (snd e) l.
Proof. intros n [i a] I. exact (in_combine_r _ _ _ _ I). Qed.
Lemma extraction_eq : extraction t blackbox db =
  (group fst snd (flat_map kept_entry (enumerate (db_layers db))) [], flat_map unknown_entry (enumerate (db_layers db))).
Proof.
  unfold extraction. assert (G : forall es st, (forall e, In e es -> In (snd e) (db_layers db)) ->
    fold_left (extract_step t blackbox db) es st = (group fst snd (flat_map kept_entry es) (fst st), snd st ++ flat_map unknown_entry es)).
  { induction es as [|e es IH]; intros st S; simpl; [rewrite app_nil_r; destruct st; reflexivity|].
    rewrite IH by (intros; apply S; right; assumption). rewrite extract_step_eq by (apply S; left; reflexivity). simpl.
    unfold add_kept, group. rewrite fold_left_app, app_assoc. reflexivity. }
  rewrite G; [reflexivity|]. intros e I. apply (enumerate_from _ _ _ I).
Qed.
Lemma flat_map_filter {A B} (f : A -> list B) (P : A -> bool) (g : A -> B) l :
  (forall a, f a = if P a then [g a] else []) -> flat_map f l = map g (filter P l).
Proof. intros E. induction l as [|a l IH]; simpl; [reflexivity|]. rewrite E, IH. destruct (P a); reflexivity. Qed.
Lemma filter_flat_map {A B} (f : A -> list B) (P : B -> bool) l : filter P (flat_map f l) = flat_map (fun a => filter P (f a)) l.
Proof. induction l as [|a l IH]; simpl; [reflexivity|]. rewrite filter_app, IH. reflexivity. Qed.
Lemma map_flat_map {A B C} (f : A -> list B) (g : B -> C) l : map g (flat_map f l) = flat_map (fun a => map g (f a)) l.
Proof. induction l as [|a l IH]; simpl; [reflexivity|]. rewrite map_app, IH. reflexivity. Qed.
Lemma extracted_get p : dget (extracted_layers t blackbox db) p = match sources t blackbox db p with [] => None | xs => Some xs end.
Proof.
  unfold extracted_layers. rewrite extraction_eq. simpl. rewrite group_get. simpl.
  replace (map snd (filter (fun e : gds * xlayer => eqb (fst e) p) (flat_map kept_entry (enumerate (db_layers db))))) with (sources t blackbox db p); [reflexivity|].
  rewrite filter_flat_map, map_flat_map. unfold sources. symmetry. apply flat_map_filter.
  intros [i l]. unfold kept_entry, belongs; simpl. destruct (info_of t (lv_name l)) as [c|]; [|rewrite andb_false_r; reflexivity].
  destruct (has_shapes db l), (hidden blackbox c); simpl; try reflexivity.
  destruct (eqb (cl_pair c) p) eqn:E; [|reflexivity]. apply eqb_eq in E. rewrite E. reflexivity.
Qed.
Lemma unnamed_eq : unnamed_layers t blackbox db = unknown_layers t db.
Proof. unfold unnamed_layers. rewrite extraction_eq. simpl. unfold unknown_layers. apply flat_map_filter. intros; reflexivity. Qed.
Lemma enumerate_flat_map {A B} (f : A -> list B) (l : list A) : flat_map (fun e : nat * A => f (snd e)) (enumerate l) = flat_map f l.
Proof.
  unfold enumerate. generalize 0%nat. induction l as [|a l IH]; intros n; simpl; [reflexivity|]. rewrite IH. reflexivity.
Qed.
Lemma extracted_keys : dkeys (extracted_layers t blackbox db) = used_pairs t blackbox db.
Proof.
  unfold extracted_layers. rewrite extraction_eq. simpl. rewrite group_keys. unfold used_pairs. f_equal.
  rewrite map_flat_map. rewrite <- (enumerate_flat_map _ (db_layers db)). apply flat_map_ext. intros [i l]. unfold kept_entry; simpl.
  destruct (info_of t (lv_name l)); [|reflexivity]. destruct (has_shapes db l && negb (hidden blackbox c)); reflexivity.
Qed.
Lemma extracted_wf : dwf (extracted_layers t blackbox db).
Proof. unfold extracted_layers. rewrite extraction_eq. apply group_wf. Qed.
Lemma sources_shapes p : flat_map x_shapes (sources t blackbox db p) = all_shapes t blackbox db p.
Proof.
  unfold sources, all_shapes. rewrite <- (enumerate_flat_map _ (db_layers db)).
  induction (enumerate (db_layers db)) as [|[i l] es IH]; simpl; [reflexivity|]. destruct (belongs t blackbox db p l); simpl; rewrite IH; reflexivity.
Qed.
Lemma shape_eta (s : shape) : (fst s, snd s) = s. Proof. destruct s; reflexivity. Qed.
Lemma layer_shapes_eq p : shapes_of_layer t blackbox db p = match sources t blackbox db p with [] => None | _ => Some (all_shapes t blackbox db p) end.
Proof.
  unfold shapes_of_layer. rewrite extracted_get, <- sources_shapes. destruct (sources t blackbox db p) as [|x [|y r]]; [reflexivity| |].
  - simpl. rewrite app_nil_r. reflexivity.
  - f_equal. apply flat_map_ext. intros a. rewrite (map_ext _ _ shape_eta), map_id. reflexivity.
Qed.
Lemma net_shapes_eq p n : shapes_of_net t blackbox db p n =
  match sources t blackbox db p with [] => None | _ => Some (map fst (filter (fun s : shape => eqb (snd s) n) (all_shapes t blackbox db p))) end.
Proof.
  unfold shapes_of_net. rewrite extracted_get, <- sources_shapes. destruct (sources t blackbox db p) as [|x r]; [reflexivity|].
  f_equal. generalize (x :: r). clear. intros xs. induction xs as [|x xs IH]; simpl; [reflexivity|].
  rewrite IH, filter_app, map_app. reflexivity.
Qed.
End Context.

Lemma find_ext_in {A} (f g : A -> bool) l : (forall a, In a l -> f a = g a) -> find f l = find g l.
Proof. induction l as [|a l IH]; simpl; intros E; [reflexivity|]. rewrite <- E by auto. destruct (f a); auto. Qed.
(** ** pins *)
Section Pins.
Variables (t : tech) (blackbox : bool) (db : lvsdb) (labels : gds -> list (string * point)) (inside : poly -> point -> bool) (lid : gds -> nat).
Hypothesis wf : db_wf db.
Lemma layer_get p : dget (layer_info_by_gds_pair t) p = layer_of t p.
Proof. unfold layer_info_by_gds_pair, layer_of. rewrite comp_dict_get. destruct (last_such _ _); reflexivity. Qed.
Lemma drawn_get n : dget (gds_pair_for_layer_name t) n = drawn t n.
Proof. unfold gds_pair_for_layer_name, drawn. apply comp_dict_get. Qed.
Lemma drawn_layer n p : drawn t n = Some p -> layer_of t p <> None.
Proof.
  unfold drawn, layer_of. destruct (last_such _ (layers t)) as [l|] eqn:E; [|discriminate]. simpl. intros F; injection F as <-.
  apply last_such_In in E. destruct E as [I _]. intros C. rewrite last_such_None in C. specialize (C _ I). rewrite eqb_refl in C. discriminate.
Qed.
Lemma used_canon q : In q (used_pairs t blackbox db) -> exists c, last_such (fun c => eqb (cl_pair c) q) (computed t) = Some c.
Proof.
  unfold used_pairs. rewrite distinct_In, in_flat_map. intros (l & I & J).
  destruct (info_of t (lv_name l)) as [c|] eqn:F; [|destruct J].
  destruct (has_shapes db l && negb (hidden blackbox c)); [|destruct J]. destruct J as [<-|[]].
  unfold info_of in F. apply last_such_In in F. destruct F as [Ic _].
  destruct (last_such (fun c0 => eqb (cl_pair c0) (cl_pair c)) (computed t)) eqn:L; [eauto|].
  rewrite last_such_None in L. specialize (L _ Ic). rewrite eqb_refl in L. discriminate.
Qed.
Lemma source_pair q x : In x (sources t blackbox db q) -> x_pair x = q.
Proof. unfold sources. rewrite in_map_iff. intros (e & <- & _). reflexivity. Qed.
Definition pin_conflict (p : gds) : bool := match pin_sources t blackbox db p with [] | [_] => false | _ => true end.
Lemma pins_of_source_eq q p x : In q (used_pairs t blackbox db) -> x_pair x = q -> layer_of t p <> None ->
  pins_of_source t blackbox db labels inside lid p x =
  if pin_conflict p then None
  else Some (flat_map (pin_for t inside lid q (flat_map x_shapes (pin_sources t blackbox db p))) (texts_of t labels p)).
Proof.
  intros U <- L. destruct (used_canon _ U) as (c & C). unfold pins_of_source, pins_of_layer, pin_conflict, pin_sources, texts_of.
  rewrite layer_get. destruct (layer_of t p) as [l|]; [|congruence]. rewrite (extracted_get t blackbox db wf).
  rewrite canon_get, info_by_pair. unfold canon_of, pin_for. rewrite C. simpl.
  assert (G : forall ps txs, all_some (flat_map (fun tx : string * point =>
       match find (fun s : shape => inside (fst s) (snd tx)) ps with
       | Some s => [Some (Pin (fst tx) (snd s) (lid (x_pair x)) (cl_orig c) (cl_name c) (snd tx))] | None => [] end) txs) =
     Some (flat_map (fun tx : string * point => match find (fun s : shape => inside (fst s) (snd tx)) ps with
       | Some s => [Pin (fst tx) (snd s) (lid (x_pair x)) (cl_orig c) (cl_name c) (snd tx)] | None => [] end) txs)).
  { intros ps txs. apply all_some_Some. rewrite map_flat_map. apply flat_map_ext. intros a. destruct (find _ ps); reflexivity. }
  destruct (sources t blackbox db (tl_pin l)) as [|y [|z r]]; simpl; rewrite ?app_nil_r; [apply (G [])|apply G|reflexivity].
Qed.
(** the pins found on extracted pair [q], with the drawn layer they go to *)
Definition pin_items (e : gds * list xlayer) : list (gds * pin) :=
  match pin_target t (fst e) with
  | Some p => map (pair p) (flat_map (fun _ => flat_map (pin_for t inside lid (fst e) (flat_map x_shapes (pin_sources t blackbox db p))) (texts_of t labels p)) (snd e))
  | None => []
  end.
Definition pin_fails (q : gds) : bool := match pin_target t q with Some p => pin_conflict p | None => false end.
Lemma pin_fold_none f (l : list xlayer) : fold_left (fun (d : option (dict gds (list pin))) x => match d, f x with
   | Some d, Some ps => Some (fold_left (fun d v => dappend d (fst v) (snd v)) ps d) | _, _ => None end) l None = None.
Proof. induction l; simpl; auto. Qed.
Lemma pin_step_eq d e : In (fst e) (used_pairs t blackbox db) -> snd e = sources t blackbox db (fst e) -> snd e <> [] ->
  pin_step t blackbox db labels inside lid (Some d) e = if pin_fails (fst e) then None else Some (group fst snd (pin_items e) d).
Proof.
  destruct e as [q xs]; simpl; intros U S Ne. unfold pin_fails, pin_items, pin_target; simpl. rewrite canon_get.
  destruct (used_canon _ U) as (c & C). assert (Cq : canon_of t q = Some (cl_orig c)) by (unfold canon_of; rewrite C; reflexivity).
  rewrite Cq, drawn_get. destruct (drawn t (cl_orig c)) as [p|] eqn:D; [|reflexivity].
  rewrite layer_get. pose proof (drawn_layer _ _ D) as L. destruct (layer_of t p) as [l|] eqn:Lp; [|congruence].
  assert (P : forall x, In x xs -> pins_of_source t blackbox db labels inside lid p x =
     if pin_conflict p then None else Some (flat_map (pin_for t inside lid q (flat_map x_shapes (pin_sources t blackbox db p))) (texts_of t labels p))).
  { intros x I. rewrite S in I. apply pins_of_source_eq; [exact U|apply (source_pair _ _ I)|congruence]. }
  clear S. destruct (pin_conflict p) eqn:Cf.
  - destruct xs as [|x xs]; [congruence|]. simpl. rewrite P by (left; reflexivity).
    clear. induction xs; simpl; auto.
  - set (ps := flat_map (pin_for t inside lid q (flat_map x_shapes (pin_sources t blackbox db p))) (texts_of t labels p)) in *.
    clear Ne. revert d. induction xs as [|x xs IH]; intros d; simpl; [reflexivity|]. rewrite P by (left; reflexivity).
    rewrite IH by (intros; apply P; right; assumption). f_equal. unfold group. rewrite map_app, fold_left_app. f_equal.
    clear. revert d. induction ps as [|v ps IH]; intros d; simpl; [reflexivity|]. apply IH.
Qed.
Lemma pins_eq : pins_by_layer t blackbox db labels inside lid =
  if existsb pin_fails (used_pairs t blackbox db) then None
  else Some (group fst snd (flat_map pin_items (extracted_layers t blackbox db)) []).
Proof.
  unfold pins_by_layer. rewrite <- (extracted_keys t blackbox db wf).
  assert (Ok : forall e, In e (extracted_layers t blackbox db) -> In (fst e) (used_pairs t blackbox db) /\ snd e = sources t blackbox db (fst e) /\ snd e <> []).
  { intros [q xs] I; simpl. split; [|].
    - rewrite <- (extracted_keys t blackbox db wf). apply (in_map fst) in I. exact I.
    - assert (G : dget (extracted_layers t blackbox db) q = Some xs) by (apply In_dget; [apply extracted_wf, wf|exact I]).
      rewrite (extracted_get t blackbox db wf) in G. destruct (sources t blackbox db q); [discriminate|]. injection G as <-. split; [reflexivity|discriminate]. }
  generalize (extracted_layers t blackbox db) Ok. clear Ok. intros es Ok.
  assert (N : forall es, fold_left (pin_step t blackbox db labels inside lid) es None = None) by (clear; induction es; simpl; auto).
  assert (G : forall d, fold_left (pin_step t blackbox db labels inside lid) es (Some d) =
     if existsb pin_fails (dkeys es) then None else Some (group fst snd (flat_map pin_items es) d)).
  { induction es as [|e es IH]; intros d; [reflexivity|]. cbn [fold_left flat_map]. change (dkeys (e :: es)) with (fst e :: dkeys es). cbn [existsb].
    destruct (Ok e (or_introl eq_refl)) as (A & B & C). rewrite pin_step_eq by assumption.
    destruct (pin_fails (fst e)); simpl; [apply N|]. rewrite IH by (intros; apply Ok; right; assumption).
    destruct (existsb pin_fails (dkeys es)); [reflexivity|]. unfold group. rewrite fold_left_app. reflexivity. }
  apply G.
Qed.
Lemma pins_get p : existsb pin_fails (used_pairs t blackbox db) = false ->
  map snd (filter (fun e : gds * pin => eqb (fst e) p) (flat_map pin_items (extracted_layers t blackbox db))) = expected_pins t blackbox db labels inside lid p.
Proof.
  intros _. unfold expected_pins. rewrite <- (extracted_keys t blackbox db wf).
  assert (Ok : forall e, In e (extracted_layers t blackbox db) -> snd e = sources t blackbox db (fst e)).
  { intros [q xs] I; simpl.
    assert (G : dget (extracted_layers t blackbox db) q = Some xs) by (apply In_dget; [apply extracted_wf, wf|exact I]).
    rewrite (extracted_get t blackbox db wf) in G. destruct (sources t blackbox db q); [discriminate|]. injection G as <-. reflexivity. }
  generalize (extracted_layers t blackbox db) Ok. clear Ok. intros es Ok.
  induction es as [|e es IH]; simpl; [reflexivity|]. rewrite filter_app, map_app, IH by (intros; apply Ok; right; assumption). f_equal.
  unfold pin_items. rewrite <- (Ok e) by (left; reflexivity). destruct (pin_target t (fst e)) as [p'|]; [|reflexivity].
  destruct (eqb (Some p') (Some p)) eqn:E.
  - apply eqb_eq in E. injection E as <-. induction (flat_map _ (snd e)) as [|v vs IHv]; simpl; [reflexivity|]. rewrite eqb_refl. simpl. rewrite IHv. reflexivity.
  - assert (N : eqb p' p = false) by (apply eqb_false; intros ->; rewrite eqb_refl in E; discriminate).
    induction (flat_map _ (snd e)) as [|v vs IHv]; simpl; [reflexivity|]. rewrite N. exact IHv.
Qed.
End Pins.

(** ** devices *)
Section Devices.
Variables (t : tech) (blackbox : bool) (db : lvsdb).
Hypothesis wf : db_wf db.
Lemma terminal_region_ok e r : terminal_region t blackbox db e = Some r -> region_matches t blackbox db e r.
Proof.
  unfold terminal_region, region_matches. destruct (layer_map_ok t blackbox db) as (A & _ & _).
  destruct (dget (snd (layer_map t blackbox db)) (fst e)) as [li|] eqn:E; [|discriminate].
  destruct (A _ _ E) as (l & p & I & Ei & Ep & Nt). rewrite Nt, canon_get.
  destruct (canon_of t p) as [cn|] eqn:C; [|discriminate]. intros F; injection F as <-. simpl.
  exists l, p. rewrite Ei. repeat split; auto. unfold region_to_pb. rewrite map_map. reflexivity.
Qed.
Lemma terminal_region_total e : describable t blackbox db (fst e) <-> terminal_region t blackbox db e <> None.
Proof.
  unfold terminal_region, describable. split.
  - intros (l & I & <- & D). pose proof (layer_map_get t blackbox db wf l I) as G. unfold mapped, layer_pair in G.
    destruct (info_of t (lv_name l)) as [c|] eqn:F.
    + rewrite D in G. simpl in G. destruct G as (li & p & E & Ep & Nt). rewrite E, Nt, canon_get. injection Ep as <-.
      unfold canon_of. unfold info_of in F. apply last_such_In in F. destruct F as [Ic _].
      destruct (last_such (fun c0 => eqb (cl_pair c0) (cl_pair c)) (computed t)) eqn:L; [discriminate|].
      rewrite last_such_None in L. specialize (L _ Ic). rewrite eqb_refl in L. discriminate.
    + destruct (lv_info l) as [q|]; [|destruct D]. destruct G as (li & p & E & Ep & Nt). rewrite E, Nt, canon_get. injection Ep as <-.
      destruct (canon_of t q); [discriminate|congruence].
  - destruct (dget (snd (layer_map t blackbox db)) (fst e)) as [li|] eqn:E; [|congruence].
    destruct (layer_map_ok t blackbox db) as (_ & _ & C). destruct (C (fst e)) as (l & I & M & Ei); [rewrite E; discriminate|].
    pose proof (layer_map_get t blackbox db wf l I) as G. rewrite M, Ei, E in G. destruct G as (li' & p & F & Ep & Nt). injection F as <-.
    rewrite Nt, canon_get. intros D. exists l. repeat split; auto. unfold mapped, layer_pair in *.
    destruct (info_of t (lv_name l)); [apply negb_true_iff; exact M|]. rewrite Ep. destruct (canon_of t p); congruence.
Qed.
Lemma all_some_Forall2 {A B} (f : A -> option B) (P : A -> B -> Prop) l r : (forall a b, f a = Some b -> P a b) -> all_some (map f l) = Some r -> Forall2 P l r.
Proof.
  intros Hp. revert r. induction l as [|a l IH]; intros r E; apply all_some_Some in E; destruct r as [|b r]; try discriminate; [constructor|].
  simpl in E. injection E as E1 E2. constructor; [apply Hp, E1|]. apply IH, all_some_Some, E2.
Qed.
Lemma device_terminals_ok d td ts : device_terminals t blackbox db d td = Some ts ->
  Forall2 (terminal_matches t blackbox db d)
    (match kd_net d (fst td) with
     | Some (net, refs) => map (fun r => (fst td, snd td, net, r)) (filter (fun r => eqb (tr_device r) (kd_name d) && eqb (tr_terminal r) (fst td)) refs)
     | None => [] end) ts.
Proof.
  unfold device_terminals. destruct (kd_net d (fst td)) as [[net refs]|]; [|discriminate]. intros E.
  generalize dependent ts. induction (filter _ refs) as [|r rs IH]; intros ts E; apply all_some_Some in E; destruct ts as [|v ts]; try discriminate; [constructor|].
  simpl in E. injection E as E1 E2. simpl. constructor; [|apply IH, all_some_Some, E2].
  destruct (all_some (map (terminal_region t blackbox db) (tr_shapes r))) as [rs'|] eqn:R; [|discriminate]. injection E1 as <-. simpl.
  repeat split. apply (all_some_Forall2 _ _ _ _ terminal_region_ok R).
Qed.
Lemma Forall2_app_concat {A B} (P : A -> B -> Prop) ls rs : Forall2 (Forall2 P) ls rs -> Forall2 P (List.concat ls) (List.concat rs).
Proof. induction 1; simpl; [constructor|]. apply Forall2_app; assumption. Qed.
Lemma device_step_ok dd d dd' : device_step t blackbox db (Some dd) d = Some dd' -> exists v, device_matches t blackbox db d v /\ dd' = dset dd (kd_name d) v.
Proof.
  unfold device_step. destruct (all_some (map (device_terminals t blackbox db d) (kd_terminals d))) as [ts|] eqn:E; [|discriminate].
  intros F; injection F as <-. eexists. split; [|reflexivity]. unfold device_matches; simpl. repeat split.
  unfold terminal_refs. rewrite flat_map_concat_map. apply Forall2_app_concat.
  pose proof (all_some_Forall2 _ _ _ _ (device_terminals_ok d) E) as G. clear E. induction G; simpl; constructor; auto.
Qed.
Lemma devices_none ds : fold_left (device_step t blackbox db) ds None = None.
Proof. induction ds; simpl; auto. Qed.
Lemma devices_ok ds : forall dd dd', NoDup (map kd_name ds) -> (forall d, In d ds -> ~ In (kd_name d) (dkeys dd)) ->
  fold_left (device_step t blackbox db) ds (Some dd) = Some dd' ->
  exists vs, dd' = dd ++ vs /\ Forall2 (fun d v => fst v = kd_name d /\ device_matches t blackbox db d (snd v)) ds vs.
Proof.
  induction ds as [|d ds IH]; intros dd dd' N F E; cbn [fold_left] in E.
  - injection E as <-. exists []. rewrite app_nil_r. auto.
  - destruct (device_step t blackbox db (Some dd) d) as [d1|] eqn:S; [|rewrite devices_none in E; discriminate].
    destruct (device_step_ok _ _ _ S) as (v & M & ->). inversion N as [|? ? Nin Nd]; subst.
    rewrite dkeys_dset_absent in E by (apply F; left; reflexivity).
    apply IH in E; [|exact Nd|].
    + destruct E as (vs & -> & G). exists ((kd_name d, v) :: vs). rewrite <- app_assoc. split; [reflexivity|]. constructor; auto.
    + intros d' I C. unfold dkeys in C. rewrite map_app in C. apply in_app_iff in C. destruct C as [C|[C|[]]].
      * apply (F d'); [right; exact I|exact C].
      * simpl in C. apply Nin. rewrite C. apply in_map, I.
Qed.
Lemma device_step_total dd d : device_step t blackbox db (Some dd) d <> None <->
  (forall td, In td (kd_terminals d) -> kd_net d (fst td) <> None) /\
  (forall e i s, In e (terminal_refs d) -> In (i, s) (tr_shapes (snd e)) -> describable t blackbox db i).
Proof.
  unfold device_step. split.
  - destruct (all_some (map (device_terminals t blackbox db d) (kd_terminals d))) as [ts|] eqn:E; [|congruence]. intros _.
    assert (G : forall td, In td (kd_terminals d) -> device_terminals t blackbox db d td <> None).
    { intros td I C. assert (X : all_some (map (device_terminals t blackbox db d) (kd_terminals d)) = None) by (apply all_some_None; rewrite <- C; apply in_map, I). congruence. }
    split; [intros td I C; apply (G td I); unfold device_terminals; rewrite C; reflexivity|].
    unfold terminal_refs. intros e i s I J. apply in_flat_map in I. destruct I as (td & I & K). specialize (G td I). unfold device_terminals in G.
    destruct (kd_net d (fst td)) as [[net refs]|]; [|destruct K]. apply in_map_iff in K. destruct K as (r & <- & K). simpl in J.
    apply (terminal_region_total (i, s)). intros C. apply G. apply all_some_None. apply in_map_iff. exists r. split; [|exact K].
    replace (all_some (map (terminal_region t blackbox db) (tr_shapes r))) with (@None (list lregion)); [reflexivity|].
    symmetry. apply all_some_None. rewrite <- C. apply in_map, J.
  - intros (A & B). destruct (all_some (map (device_terminals t blackbox db d) (kd_terminals d))) as [ts|] eqn:E; [discriminate|]. exfalso.
    apply all_some_None in E. apply in_map_iff in E. destruct E as (td & E & I). unfold device_terminals in E. pose proof (A td I) as Nn.
    destruct (kd_net d (fst td)) as [[net refs]|] eqn:K; [|congruence]. apply all_some_None in E. apply in_map_iff in E. destruct E as (r & E & J).
    destruct (all_some (map (terminal_region t blackbox db) (tr_shapes r))) eqn:R; [discriminate|]. apply all_some_None in R. apply in_map_iff in R.
    destruct R as ([i s] & R & L). apply (terminal_region_total (i, s)) in R; [exact R|]. simpl.
    apply (B (fst td, snd td, net, r) i s); [|exact L]. unfold terminal_refs. apply in_flat_map. exists td. split; [exact I|].
    rewrite K. apply in_map_iff. exists r. auto.
Qed.
End Devices.

(** ** the cell *)
Section Cell.
Variables (t : tech) (shapes : gds -> option (list shape)) (substrate : list shape).
Lemma gds_pair_eq n : gds_pair t n = pair_of t n.
Proof. unfold gds_pair, pair_of. rewrite pair_by_name, drawn_get. destruct (info_of t n); reflexivity. Qed.
Definition add_region (d : dict string (list shape)) (e : string * list shape) : dict string (list shape) :=
  dset d (fst e) (match dget d (fst e) with Some r => r | None => [] end ++ snd e).
Lemma region_step_eq d m : region_step t shapes (Some d) m =
  match canonical_metal t m with
  | None => None
  | Some _ => Some (fold_left add_region (present t shapes [m]) d)
  end.
Proof.
  unfold region_step, layer_shapes, present, canonical_metal, metal_shapes; simpl. rewrite gds_pair_eq.
  unfold canonical_metal, metal_shapes. destruct (pair_of t m) as [p|]; [|reflexivity]. rewrite canon_get.
  destruct (canon_of t p) as [cn|]; [|reflexivity]. destruct (shapes p); reflexivity.
Qed.
Lemma regions_none ms : fold_left (region_step t shapes) ms None = None.
Proof. induction ms; simpl; auto. Qed.
Lemma regions_eq ms : forall d, fold_left (region_step t shapes) ms (Some d) =
  if forallb (fun m => match canonical_metal t m with Some _ => true | None => false end) ms
  then Some (fold_left add_region (present t shapes ms) d) else None.
Proof.
  induction ms as [|m ms IH]; intros d; [reflexivity|]. cbn [fold_left forallb]. rewrite region_step_eq.
  destruct (canonical_metal t m) as [cn|] eqn:C; cbn [andb]; [|apply regions_none]. rewrite IH.
  destruct (forallb _ ms); [|reflexivity]. unfold present. cbn [flat_map]. rewrite app_nil_r, fold_left_app. reflexivity.
Qed.
Lemma add_region_get es : forall d k, dget (fold_left add_region es d) k =
  match dget d k, map snd (filter (fun e : string * list shape => eqb (fst e) k) es) with
  | Some v, vs => Some (v ++ List.concat vs)
  | None, [] => None
  | None, vs => Some (List.concat vs)
  end.
Proof.
  induction es as [|e es IH]; intros d k; simpl; [destruct (dget d k); rewrite ?app_nil_r; reflexivity|].
  rewrite IH. unfold add_region at 1. rewrite dget_dset. unfold eqb.
  destruct (eq_dec k (fst e)) as [->|N].
  - destruct (eq_dec (fst e) (fst e)); [|congruence]. simpl.
    destruct (dget d (fst e)); simpl; [rewrite <- app_assoc|]; reflexivity.
  - destruct (eq_dec (fst e) k); [congruence|reflexivity].
Qed.
Lemma add_region_keys es : forall d, dkeys d = distinct (dkeys d) -> dkeys (fold_left add_region es d) = distinct (dkeys d ++ map fst es).
Proof.
  induction es as [|e es IH] using rev_ind; intros d Hd; [rewrite app_nil_r; exact Hd|].
  rewrite fold_left_app, map_app, app_assoc. cbn [map fold_left]. rewrite distinct_snoc. rewrite <- IH by exact Hd. unfold add_region at 1.
  assert (W : In (fst e) (dkeys d ++ map fst es) <-> In (fst e) (dkeys (fold_left add_region es d))) by (rewrite IH by exact Hd; symmetry; apply distinct_In).
  destruct (in_dec eq_dec (fst e) (dkeys d ++ map fst es)) as [I|I].
  - apply dkeys_dset_present, W, I.
  - rewrite dkeys_dset_absent by (rewrite <- W; exact I). unfold dkeys. rewrite map_app. reflexivity.
Qed.
End Cell.
