(** Proofs for C55. *)
From Coq Require Import String Ascii ZArith Permutation Lia.
From Verif Require Import PyBase PyLib CV_Model CV_Spec.
Local Open Scope string_scope.
Local Open Scope list_scope.

(** ** tables *)
Lemma comprehension_get {A K V} `{EqDec K} (key : A -> K) (value : A -> V) ls k v :
  dget (comprehension key value ls) k = Some v <-> exists a l b, ls = a ++ l :: b /\ key l = k /\ value l = v /\ ~ In k (map key b).
Proof.
  unfold comprehension. induction ls as [|x ls IH] using rev_ind.
  - split; [discriminate|]. intros (a & l & b & E & _). now destruct a.
  - rewrite fold_left_app. cbn [fold_left]. rewrite dget_dset. destruct (eq_dec k (key x)) as [->|N].
    + split.
      * intros [= <-]. exists ls, x, []. repeat split. auto.
      * intros (a & l & b & E & E1 & E2 & E3). f_equal. destruct b as [|y b _] using rev_ind.
        -- apply app_inj_tail in E. destruct E as [_ ->]. exact E2.
        -- exfalso. apply E3. rewrite app_comm_cons, app_assoc in E. apply app_inj_tail in E. destruct E as [_ ->].
           rewrite map_app, in_app_iff. right. now left.
    + rewrite IH. split; intros (a & l & b & E & E1 & E2 & E3).
      * exists a, l, (b ++ [x]). rewrite E, <- app_assoc. repeat split; auto. rewrite map_app, in_app_iff. intros [J|[J|[]]]; [auto|congruence].
      * destruct b as [|y b _] using rev_ind.
        -- apply app_inj_tail in E. destruct E as [_ <-]. congruence.
        -- rewrite app_comm_cons, app_assoc in E. apply app_inj_tail in E. destruct E as [E <-]. exists a, l, b. repeat split; auto.
           intros J. apply E3. rewrite map_app, in_app_iff. now left.
Qed.
Lemma comprehension_key {A K V} `{EqDec K} (key : A -> K) (value : A -> V) ls k :
  In k (map key ls) -> exists v, dget (comprehension key value ls) k = Some v.
Proof.
  unfold comprehension. induction ls as [|x ls IH] using rev_ind; [intros []|]. rewrite map_app, in_app_iff, fold_left_app. cbn [fold_left map].
  rewrite dget_dset. destruct (eq_dec k (key x)); [eauto|]. intros [J|[J|[]]]; [auto|congruence].
Qed.
Lemma comprehension_fresh {A K V} `{EqDec K} (key : A -> K) (value : A -> V) ls : NoDup (map key ls) ->
  comprehension key value ls = map (fun l => (key l, value l)) ls.
Proof.
  unfold comprehension. induction ls as [|x ls IH] using rev_ind; [reflexivity|]. rewrite map_app, fold_left_app. cbn [fold_left map]. intros N.
  pose proof (NoDup_remove _ _ _ N) as [N1 N2]. rewrite app_nil_r in *. rewrite IH by exact N1. rewrite map_app.
  apply dkeys_dset_absent. unfold dkeys. rewrite map_map. exact N2.
Qed.

Lemma by_lpp_named t n l : dget (layer_by_lpp t) n = Some l -> In l t /\ lpp l = n /\ named t n (l_pair l).
Proof.
  intros E. apply comprehension_get in E. destruct E as (a & x & b & -> & E1 & -> & E2).
  split; [apply in_or_app; right; now left|]. split; [exact E1|]. exists a, l, b. auto.
Qed.
Lemma named_by_lpp t n p : named t n p -> exists l, dget (layer_by_lpp t) n = Some l /\ l_pair l = p.
Proof. intros (a & l & b & -> & E1 & E2 & E3). exists l. split; [|exact E2]. apply comprehension_get. exists a, l, b. auto. Qed.
Lemma known_by_lpp t n : known t n -> exists l, dget (layer_by_lpp t) n = Some l.
Proof. apply comprehension_key. Qed.
Lemma by_lpp_known t n l : dget (layer_by_lpp t) n = Some l -> known t n.
Proof. intros E. apply by_lpp_named in E. destruct E as (J & <- & _). now apply in_map. Qed.
Lemma pair_layer (t : list layer) l l' : NoDup (map l_pair t) -> In l t -> In l' t -> l_pair l = l_pair l' -> l = l'.
Proof.
  induction t as [|x t IH]; [intros _ []|]. cbn [map In]. intros N J J' E. inversion N as [|? ? N1 N2]; subst.
  destruct J as [->|J], J' as [->|J']; auto; exfalso; apply N1; [rewrite E|rewrite <- E]; now apply in_map.
Qed.

Lemma Forall2_in_r {A B} (P : A -> B -> Prop) l r : Forall2 P l r -> forall y, In y r -> exists x, In x l /\ P x y.
Proof. induction 1 as [|x y l r E F IH]; [intros ? []|]. intros z [<-|J]; [exists x; split; [now left|auto]|]. destruct (IH z J) as (u & J1 & J2). exists u. split; [now right|auto]. Qed.
Lemma Forall2_in_l {A B} (P : A -> B -> Prop) l r : Forall2 P l r -> forall x, In x l -> exists y, In y r /\ P x y.
Proof. induction 1 as [|x y l r E F IH]; [intros ? []|]. intros z [<-|J]; [exists y; split; [now left|auto]|]. destruct (IH z J) as (u & J1 & J2). exists u. split; [now right|auto]. Qed.
Lemma NoDup_fst {A B} (m : list (A * B)) k v v' : NoDup (map fst m) -> In (k, v) m -> In (k, v') m -> v = v'.
Proof.
  induction m as [|[a b] m IH]; [intros _ []|]. cbn [map fst In]. intros N J J'. inversion N as [|? ? N1 N2]; subst.
  destruct J as [E|J], J' as [E'|J']; [congruence|exfalso; apply N1|exfalso; apply N1|eauto].
  - injection E as -> ->. apply (in_map fst) in J'. exact J'.
  - injection E' as -> ->. apply (in_map fst) in J. exact J.
Qed.

Section Mapping.
Variables (src dest : list layer).
Lemma find_dest_known names : (forall d, In d names -> known dest d) -> exists ls, find_dest (layer_by_lpp dest) names = (ls, false) /\
  Forall2 (fun n l => dget (layer_by_lpp dest) n = Some l) names ls.
Proof.
  induction names as [|n r IH]; intros K; [exists []; split; [reflexivity|constructor]|]. cbn [find_dest].
  destruct IH as (ls & E & F); [intros d J; apply K; now right|]. rewrite E. destruct (known_by_lpp dest n) as (l & El); [apply K; now left|].
  rewrite El. exists (l :: ls). split; [reflexivity|]. constructor; assumption.
Qed.
Lemma find_dest_unknown names d : In d names -> ~ known dest d -> snd (find_dest (layer_by_lpp dest) names) = true.
Proof.
  induction names as [|n r IH]; [intros []|]. cbn [find_dest]. intros J K. destruct (find_dest (layer_by_lpp dest) r) as [ls e]. cbn [snd] in IH.
  destruct (dget (layer_by_lpp dest) n) as [l|] eqn:El; [|reflexivity]. cbn [snd]. destruct J as [->|J]; [|auto].
  destruct K. now apply (by_lpp_known _ _ l).
Qed.
(** what the loop adds for one entry *)
Definition entry_of (e : string * list string) (x : layer * list layer) : Prop :=
  dget (layer_by_lpp src) (fst e) = Some (fst x) /\ Forall2 (fun n l => dget (layer_by_lpp dest) n = Some l) (snd e) (snd x).
Lemma mapping_loop_known m : (forall s ds, In (s, ds) m -> known src s) -> (forall s ds d, In (s, ds) m -> In d ds -> known dest d) ->
  NoDup (map fst m) -> exists xs, Forall2 entry_of m xs /\ forall d er, (forall x, In x xs -> ~ In (fst x) (dkeys d)) ->
    mapping_loop (layer_by_lpp src) (layer_by_lpp dest) m d er = (d ++ xs, er).
Proof.
  intros K1 K2. induction m as [|[s ds] m IH]; intros N; [exists []; split; [constructor|]; intros; now rewrite app_nil_r|].
  cbn [map fst] in N. inversion N as [|? ? N1 N2]; subst.
  destruct IH as (xs & F & G); [intros ? ? J; apply (K1 _ _ (or_intror J))|intros ? ? ? J; apply (K2 _ _ _ (or_intror J))|exact N2|].
  destruct (known_by_lpp src s) as (l & El); [apply (K1 s ds); now left|].
  destruct (find_dest_known ds) as (ls & Els & Fl); [intros d; apply (K2 s ds); now left|].
  exists ((l, ls) :: xs). split; [constructor; [split; assumption|exact F]|].
  assert (D : forall x, In x xs -> fst x <> l).
  { intros x J E. apply (Forall2_in_r _ _ _ F) in J. destruct J as (e & Je & Ee & _). apply N1. apply by_lpp_named in El, Ee.
    destruct El as (_ & <- & _), Ee as (_ & Ee & _). rewrite <- E, Ee. now apply in_map. }
  intros d er Fr. cbn [mapping_loop]. rewrite El, Els, Bool.orb_false_r. rewrite dkeys_dset_absent by (apply (Fr (l, ls)); now left).
  rewrite G.
  - now rewrite <- app_assoc.
  - intros x J. unfold dkeys. rewrite map_app, in_app_iff. intros [Q|[Q|[]]]; [apply (Fr x (or_intror J)), Q|apply (D x J); auto].
Qed.
Lemma mapping_loop_errors m d : snd (mapping_loop (layer_by_lpp src) (layer_by_lpp dest) m d true) = true.
Proof.
  revert d. induction m as [|[s ds] m IH]; intros d; [reflexivity|]. cbn [mapping_loop].
  destruct (dget (layer_by_lpp src) s); [|apply IH]. destruct (find_dest (layer_by_lpp dest) ds). apply IH.
Qed.
Lemma mapping_loop_unknown m s ds : In (s, ds) m -> (~ known src s \/ exists d, In d ds /\ ~ known dest d) -> forall d er,
  snd (mapping_loop (layer_by_lpp src) (layer_by_lpp dest) m d er) = true.
Proof.
  induction m as [|[s' ds'] m IH]; [intros []|]. intros J U d er. cbn [mapping_loop].
  destruct (dget (layer_by_lpp src) s') as [l|] eqn:El; [|apply mapping_loop_errors].
  destruct (find_dest (layer_by_lpp dest) ds') as [ls e] eqn:Ed. destruct J as [[= -> ->]|J]; [|apply IH; assumption].
  destruct U as [U|(x & Jx & U)]; [destruct U; now apply (by_lpp_known _ _ l)|].
  pose proof (find_dest_unknown ds x Jx U) as X. rewrite Ed in X. cbn in X. subst e. rewrite Bool.orb_true_r. apply mapping_loop_errors.
Qed.
End Mapping.

(** the targets of a layer *)
Definition targets_of (table : dict pair (list layer)) (q : pair) : list pair :=
  match dget table q with Some ls => as_gds_list ls | None => [(1000 + fst q, snd q)%Z] end.
Lemma table_ok m src dest : sensible m src dest -> exists table, dest_layers_by_source_gds_pair m src dest = Some table /\
  forall q, NoDup (targets_of table q) /\ targets_of table q <> [] /\ forall p, In p (targets_of table q) <-> belongs m src dest q p.
Proof.
  intros [O1 O2 O3 O4 O5 O6 O7]. destruct (mapping_loop_known src dest m O4 O5 O1) as (xs & F & G).
  unfold dest_layers_by_source_gds_pair, layer_mapping. rewrite (G [] false) by (intros x _ []). cbn [List.app].
  assert (Nl : NoDup (map (fun e : layer * list layer => l_pair (fst e)) xs)).
  { clear G O2 O3 O4 O5. revert O1. induction F as [|[s ds] x m xs Ex F IH]; intros N; [constructor|]. cbn [map fst] in *. inversion N as [|? ? N1 N2]; subst.
    constructor; [|auto]. rewrite in_map_iff. intros (y & E & J). apply N1. apply (Forall2_in_r _ _ _ F) in J. destruct J as (e & Je & Ee & _).
    destruct Ex as [Ex _]. apply by_lpp_named in Ex, Ee. cbn [fst] in Ex. destruct Ex as (X1 & X2 & _), Ee as (Y1 & Y2 & _).
    assert (fst y = fst x) by (apply (pair_layer src); auto). rewrite <- X2, <- H, Y2. now apply in_map. }
  eexists. split; [reflexivity|]. intros q. unfold targets_of. rewrite comprehension_fresh by exact Nl.
  set (table := map (fun l => (l_pair (fst l), snd l)) xs).
  assert (W : dwf table). { unfold dwf, dkeys, table. rewrite map_map. exact Nl. }
  destruct (dget table q) as [ls|] eqn:Eq.
  - apply dget_In in Eq. apply in_map_iff in Eq. destruct Eq as (x & [= E1 E2] & J).
    apply (Forall2_in_r _ _ _ F) in J. destruct J as ([s ds] & Je & Es & Fl). cbn [fst snd] in *. subst ls.
    pose proof (by_lpp_named _ _ _ Es) as (Js & Ls & Ns). rewrite E1 in Ns.
    assert (A : as_gds_list (snd x) <> []).
    { intros E. apply (O3 _ _ Je). destruct (snd x); [|discriminate]. now inversion Fl. }
    assert (Un : forall s' ds', In (s', ds') m -> named src s' q -> s' = s /\ ds' = ds).
    { intros s' ds' J N. destruct (named_by_lpp _ _ _ N) as (l' & El & P). pose proof (by_lpp_named _ _ _ El) as (Jl & Ll & _).
      assert (l' = fst x) by (apply (pair_layer src); congruence). subst l'. assert (Q : s' = s) by congruence. split; [exact Q|]. rewrite Q in J.
      eapply NoDup_fst; eassumption. }
    split; [|split; [exact A|]].
    + specialize (O2 _ _ Je). clear -Fl O2 O7. revert O2. induction Fl as [|n l ns ls E F IH]; [constructor|]. intros N. inversion N as [|? ? N1 N2]; subst.
      cbn [as_gds_list map]. constructor; [|auto]. rewrite in_map_iff. intros (y & P & J). apply N1.
      apply (Forall2_in_r _ _ _ F) in J. destruct J as (n' & Jn & En). apply by_lpp_named in E, En. destruct E as (E1 & E2 & _), En as (E3 & E4 & _).
      assert (y = l) by (apply (pair_layer dest); auto). subst y. congruence.
    + intros p. unfold as_gds_list. rewrite in_map_iff. split.
      * intros (l & P & J). left. apply (Forall2_in_r _ _ _ Fl) in J. destruct J as (d & Jd & Ed). exists s, ds, d. repeat (split; [assumption|]).
        apply by_lpp_named in Ed. destruct Ed as (_ & _ & Ed). now rewrite P in Ed.
      * intros [(s' & ds' & d & J1 & J2 & J3 & J4)|[N _]]; [|destruct (N s ds Je Ns)].
        destruct (Un _ _ J1 J2) as [-> ->]. apply (Forall2_in_l _ _ _ Fl) in J3. destruct J3 as (l & Jl & El).
        destruct (named_by_lpp _ _ _ J4) as (l' & El' & P). exists l. split; [congruence|exact Jl].
  - split; [repeat constructor; intros []|]. split; [discriminate|]. intros p.
    assert (No : forall s ds, In (s, ds) m -> ~ named src s q).
    { intros s ds J N. apply dget_None in Eq. apply Eq. apply (Forall2_in_l _ _ _ F) in J. destruct J as (x & Jx & Ex & _).
      destruct (named_by_lpp _ _ _ N) as (l' & El' & P). cbn [fst] in Ex. unfold dkeys, table. rewrite map_map. apply in_map_iff. exists x.
      split; [|exact Jx]. cbn. congruence. }
    split; [intros [<-|[]]; right; auto|]. intros [(s & ds & d & J1 & J2 & _)|[_ ->]]; [destruct (No _ _ J1 J2)|now left].
Qed.
Lemma table_bad m src dest s ds : In (s, ds) m -> (~ known src s \/ exists d, In d ds /\ ~ known dest d) -> dest_layers_by_source_gds_pair m src dest = None.
Proof.
  intros J U. unfold dest_layers_by_source_gds_pair, layer_mapping. pose proof (mapping_loop_unknown src dest m s ds J U [] false) as X.
  destruct (mapping_loop (layer_by_lpp src) (layer_by_lpp dest) m [] false) as [d e]. cbn in X. now subst e.
Qed.

(** ** the loop over the layers *)
Section Layout.
Context {shape : Type}.
Implicit Types (l : layout shape).
Lemma index_of_at a p s b : ~ In p (map fst a) -> index_of p (a ++ (p, s) :: b : layout shape) = List.length a.
Proof.
  induction a as [|[q t] a IH]; cbn; [now rewrite eqb_refl|]. intros N. rewrite (proj2 (eqb_false q p)) by (intros ->; apply N; now left). f_equal. apply IH. intros J. apply N. now right.
Qed.
Lemma set_info_at a p s b t : set_info (a ++ (p, s) :: b : layout shape) (List.length a) t = a ++ (t, s) :: b.
Proof. induction a as [|e a IH]; [reflexivity|]. cbn. destruct e. now rewrite IH. Qed.
Lemma shapes_of_at a (p : pair) s b : shapes_of (a ++ (p, s) :: b : layout shape) (List.length a) = s.
Proof. unfold shapes_of. now rewrite nth_error_app2, Nat.sub_diag by lia. Qed.
Lemma put_at a p s b t ts : put (List.length a) (a ++ (p, s) :: b : layout shape) (t :: ts) = a ++ (t, s) :: b ++ map (fun u => (u, s)) ts.
Proof.
  cbn [put]. rewrite set_info_at. revert b. induction ts as [|u ts IH]; intros b; cbn [fold_left map]; [now rewrite app_nil_r|].
  rewrite shapes_of_at, <- app_assoc. cbn [List.app]. rewrite IH, <- app_assoc. reflexivity.
Qed.

Section Loop.
Variables (m : dict string (list string)) (sl dl : list layer) (table : dict pair (list layer)).
Hypothesis Ht : dest_layers_by_source_gds_pair m sl dl = Some table.
Hypothesis Hn : forall q, targets_of table q <> [].
Definition first (e : pair * list shape) : pair * list shape := (hd (0, 0)%Z (targets_of table (fst e)), snd e).
Definition others (e : pair * list shape) : list (pair * list shape) := map (fun u => (u, snd e)) (tl (targets_of table (fst e))).
Lemma loop_ok todo : forall done extra, in_file (done ++ todo) ->
  fold_left (map_layer m sl dl (done ++ todo)) (map fst todo) (Some (map first done ++ todo ++ extra)) =
  Some (map first (done ++ todo) ++ extra ++ flat_map others todo).
Proof.
  induction todo as [|[q s] todo IH]; intros done extra N; [cbn; now rewrite !app_nil_r|].
  cbn [map fold_left fst]. unfold map_layer at 2. rewrite Ht. fold (targets_of table q).
  rewrite index_of_at.
  2:{ unfold in_file in N. rewrite map_app in N. cbn [map fst] in N. apply NoDup_remove in N. intros J. apply N, in_or_app. now left. }
  assert (L : List.length done = List.length (map first done)) by now rewrite map_length.
  rewrite L. cbn [List.app]. specialize (Hn q). destruct (targets_of table q) as [|t ts] eqn:Et; [congruence|]. rewrite put_at.
  specialize (IH (done ++ [(q, s)]) (extra ++ map (fun u => (u, s)) ts)). rewrite <- app_assoc in IH. cbn [List.app] in IH.
  rewrite map_app in IH. cbn [map] in IH. unfold first at 2 in IH. cbn [fst snd] in IH. rewrite Et in IH. cbn [hd] in IH.
  rewrite <- !app_assoc in IH. cbn [List.app] in IH. rewrite <- (app_assoc todo extra). etransitivity; [exact (IH N)|].
  cbn [flat_map]. unfold others at 2. cbn [fst snd]. rewrite Et. reflexivity.
Qed.
Lemma map_gds_layers_ok (src : layout shape) : in_file src -> map_gds_layers m sl dl src = Some (map first src ++ flat_map others src).
Proof. intros N. unfold map_gds_layers. pose proof (loop_ok src [] [] N) as X. cbn [List.app map] in X. rewrite app_nil_r in X. exact X. Qed.
Lemma shapes_at_app l l' p : shapes_at (l ++ l') p = shapes_at l p ++ shapes_at l' p.
Proof. apply flat_map_app. Qed.
Lemma shapes_at_result (Hd : forall q, NoDup (targets_of table q)) src p : Permutation (shapes_at (map first src ++ flat_map others src) p)
  (flat_map (fun e => if existsb (eqb p) (targets_of table (fst e)) then snd e else []) src).
Proof.
  rewrite shapes_at_app. induction src as [|[q s] src IH]; [constructor|]. cbn [map flat_map]. rewrite shapes_at_app.
  unfold shapes_at at 1. cbn [flat_map]. fold (shapes_at (map first src) p). unfold first at 1, others at 1. cbn [fst snd].
  specialize (Hd q). specialize (Hn q). destruct (targets_of table q) as [|t ts]; [congruence|]. cbn [hd tl existsb]. rewrite (eqb_sym p t).
  inversion Hd as [|? ? N1 N2]; subst.
  assert (X : shapes_at (map (fun u => (u, s)) ts) p = if existsb (eqb p) ts then s else []).
  { clear -N2. induction ts as [|u ts I]; [reflexivity|]. inversion N2 as [|? ? M1 M2]; subst. unfold shapes_at. cbn [map flat_map existsb fst snd].
    fold (shapes_at (map (fun u => (u, s)) ts) p). rewrite (I M2), (eqb_sym p u). destruct (eqb u p) eqn:E; [|reflexivity]. cbn [orb].
    apply (proj1 (eqb_true _ _)) in E. subst u. replace (existsb (eqb p) ts) with false; [apply app_nil_r|]. symmetry. apply Bool.not_true_is_false. intros J.
    apply existsb_exists in J. destruct J as (y & Jy & E). apply (proj1 (eqb_true _ _)) in E. now subst. }
  rewrite X.
  assert (Y : (if eqb t p || existsb (eqb p) ts then s else []) = (if eqb t p then s else []) ++ (if existsb (eqb p) ts then s else [])).
  { destruct (eqb t p) eqn:E; [|reflexivity]. cbn [orb]. apply (proj1 (eqb_true _ _)) in E. subst t. replace (existsb (eqb p) ts) with false; [now rewrite app_nil_r|].
    symmetry. apply Bool.not_true_is_false. intros J. apply existsb_exists in J. destruct J as (y & Jy & E). apply (proj1 (eqb_true _ _)) in E. now subst. }
  rewrite Y, <- IH, <- !app_assoc. apply Permutation_app_head. rewrite !app_assoc. apply Permutation_app_tail, Permutation_app_comm.
Qed.
End Loop.
End Layout.

(** ** inverting a table *)
Definition flat (m : list (string * list string)) : list (string * string) := flat_map (fun e => map (fun d => (d, fst e)) (snd e)) m.
Definition invert_step (n : dict string (list string)) (x : string * string) : dict string (list string) :=
  dset n (fst x) (match dget n (fst x) with Some l => l | None => [] end ++ [snd x]).
Lemma invert_flat m : invert_dict m = fold_left invert_step (flat m) [].
Proof.
  unfold invert_dict. generalize (@nil (string * list string)). induction m as [|[s ds] m IH]; intros n; [reflexivity|].
  cbn [fold_left flat flat_map fst snd]. rewrite fold_left_app. fold (flat m). rewrite IH. f_equal. clear IH m.
  revert n. induction ds as [|d ds IH]; intros n; [reflexivity|]. cbn [fold_left map]. rewrite IH. reflexivity.
Qed.
Definition sources (xs : list (string * string)) (d : string) : list string := map snd (filter (fun x => eqb (fst x) d) xs).
Lemma invert_get xs d : dget (fold_left invert_step xs []) d = match sources xs d with [] => None | l => Some l end.
Proof.
  induction xs as [|x xs IH] using rev_ind; [reflexivity|]. rewrite fold_left_app. cbn [fold_left]. unfold invert_step at 1. rewrite dget_dset.
  unfold sources in *. rewrite filter_app, map_app. cbn [filter].
  destruct (eq_dec d (fst x)) as [->|N].
  - rewrite eqb_refl. cbn [map]. rewrite IH. destruct (map snd (filter (fun x0 => eqb (fst x0) (fst x)) xs)); reflexivity.
  - rewrite (proj2 (eqb_false (fst x) d)) by congruence. cbn [map]. rewrite app_nil_r. exact IH.
Qed.
Lemma invert_wf xs : dwf (fold_left invert_step xs []).
Proof. induction xs as [|x xs IH] using rev_ind; [constructor|]. rewrite fold_left_app. cbn [fold_left]. now apply dwf_dset. Qed.
Lemma in_flat m d s : In (d, s) (flat m) <-> exists ds, In (s, ds) m /\ In d ds.
Proof.
  unfold flat. rewrite in_flat_map. split.
  - intros ([s' ds] & J & K). apply in_map_iff in K. destruct K as (d' & [= -> ->] & K). eauto.
  - intros (ds & J & K). exists (s, ds). split; [exact J|]. apply in_map_iff. exists d. auto.
Qed.
Lemma in_sources xs d s : In s (sources xs d) <-> In (d, s) xs.
Proof.
  unfold sources. rewrite in_map_iff. split.
  - intros ([d' s'] & <- & J). apply filter_In in J. destruct J as [J E]. apply (proj1 (eqb_true _ _)) in E. cbn in *. now subst.
  - intros J. exists (d, s). split; [reflexivity|]. apply filter_In. split; [exact J|]. apply eqb_refl.
Qed.
Lemma in_invert m d ss : In (d, ss) (invert_dict m) <-> ss <> [] /\ ss = sources (flat m) d.
Proof.
  rewrite invert_flat. split.
  - intros J. assert (J2 : dget (fold_left invert_step (flat m) []) d = Some ss) by (apply In_dget; [apply invert_wf|exact J]). clear J. rename J2 into J. rewrite invert_get in J. destruct (sources (flat m) d); [discriminate|]. injection J as <-. split; [discriminate|reflexivity].
  - intros [N ->]. apply dget_In. rewrite invert_get. destruct (sources (flat m) d); congruence.
Qed.
Lemma invert_inverse m : inverse m (invert_dict m).
Proof.
  split; [rewrite invert_flat; apply invert_wf|]. split; [intros d ss J; apply in_invert in J; apply J|]. intros s d.
  rewrite <- in_flat, <- in_sources. split.
  - intros J. exists (sources (flat m) d). split; [|exact J]. apply in_invert. split; [|reflexivity]. intros E. now rewrite E in J.
  - intros (ss & J & K). apply in_invert in J. destruct J as [_ ->]. exact K.
Qed.
Lemma flat_nodup m : NoDup (map fst m) -> (forall s ds, In (s, ds) m -> NoDup ds) -> NoDup (flat m).
Proof.
  induction m as [|[s ds] m IH]; intros N D; [constructor|]. cbn [flat flat_map fst snd]. fold (flat m). cbn [map fst] in N. inversion N as [|? ? N1 N2]; subst.
  assert (R : NoDup (flat m)) by (apply IH; [exact N2|intros; eapply D; right; eassumption]).
  specialize (D s ds (or_introl eq_refl)). clear IH N. induction D as [|d ds X D IH]; [exact R|]. cbn [map List.app]. constructor; [|exact IH].
  rewrite in_app_iff, in_map_iff. intros [(d' & [= ->] & J)|J]; [auto|]. apply in_flat in J. destruct J as (ds' & J & _). apply N1. apply (in_map fst) in J. exact J.
Qed.
Lemma sources_nodup xs d : NoDup xs -> NoDup (sources xs d).
Proof.
  unfold sources. induction 1 as [|[d' s] xs X N IH]; [constructor|]. cbn [filter fst]. destruct (eqb d' d) eqn:E; [|exact IH]. cbn [map snd]. constructor; [|exact IH].
  intros J. apply (in_sources xs d s) in J. apply (proj1 (eqb_true _ _)) in E. now subst.
Qed.
Lemma sensible_inverse m src dest : sensible m src dest -> sensible (invert_dict m) dest src.
Proof.
  intros [O1 O2 O3 O4 O5 O6 O7]. destruct (invert_inverse m) as (I1 & I2 & I3). constructor; auto.
  - intros d ss J. apply in_invert in J. destruct J as [_ ->]. apply sources_nodup, flat_nodup; assumption.
  - intros d ss J. pose proof (I2 _ _ J) as N. destruct ss as [|s ss]; [congruence|].
    destruct (proj2 (I3 s d)) as (ds & J1 & J2); [exists (s :: ss); split; [exact J|now left]|]. eapply O5; eassumption.
  - intros d ss s J K. destruct (proj2 (I3 s d)) as (ds & J1 & _); [eauto|]. eapply O4; eassumption.
Qed.
Lemma sends_back m n src dest q p : inverse m n -> sends m src dest q p -> sends n dest src p q.
Proof.
  intros (_ & _ & I) (s & ds & d & J1 & J2 & J3 & J4). destruct (proj1 (I s d)) as (ss & K1 & K2); [eauto|]. exists d, ss, s. auto.
Qed.

(** ** choosing layers *)
Lemma chosen_in {shape} (sel : pair -> bool) (l : layout shape) q : in_file l -> sel q = true ->
  exists extra, Permutation (flat_map (fun e => if sel (fst e) then snd e else []) l) (shapes_at l q ++ extra).
Proof.
  intros N S. induction l as [|[p s] l IH]; [exists []; constructor|]. unfold in_file in N. cbn [map fst] in N. inversion N as [|? ? N1 N2]; subst.
  cbn [flat_map fst snd]. unfold shapes_at. cbn [flat_map fst snd]. fold (shapes_at l q). destruct (eqb p q) eqn:E.
  - apply (proj1 (eqb_true _ _)) in E. subst p. rewrite S. exists (flat_map (fun e => if sel (fst e) then snd e else []) l).
    replace (shapes_at l q) with (@nil shape); [now rewrite app_nil_r|]. symmetry. unfold shapes_at. clear -N1. induction l as [|[p t] l IH]; [reflexivity|].
    cbn [flat_map fst map] in *. rewrite (proj2 (eqb_false p q)) by (intros ->; apply N1; now left). apply IH. intros J. apply N1. now right.
  - destruct (IH N2) as (extra & P). cbn [List.app]. exists ((if sel p then s else []) ++ extra). rewrite P. rewrite !app_assoc.
    apply Permutation_app_tail, Permutation_app_comm.
Qed.
Lemma perm_sub {shape} (a b c x y : list shape) : Permutation b (a ++ x) -> Permutation c (b ++ y) -> exists z, Permutation c (a ++ z).
Proof. intros P Q. exists (x ++ y). rewrite Q, P. now rewrite app_assoc. Qed.

(** ** the guess *)
Lemma guess_two {shape} (l : layout shape) a b : guess_technology l [a; b] = if Nat.ltb (rank l a) (rank l b) then 1%nat else 0%nat.
Proof. reflexivity. Qed.
Lemma rank_all {shape} (l : layout shape) t : (forall p, In p (map fst l) -> In p (map l_pair t)) -> rank l t = List.length l.
Proof.
  unfold rank. rewrite <- (map_length fst l). generalize (map fst l). intros ps H. f_equal. induction ps as [|p ps IH]; [reflexivity|]. cbn [filter].
  replace (existsb (eqb p) (as_gds_list t)) with true; [f_equal; apply IH; intros; apply H; now right|]. symmetry. apply existsb_exists. exists p. split; [apply H; now left|apply eqb_refl].
Qed.
Lemma rank_some {shape} (l : layout shape) t p : In p (map fst l) -> ~ In p (map l_pair t) -> (rank l t < List.length l)%nat.
Proof.
  unfold rank. rewrite <- (map_length fst l). generalize (map fst l). intros ps J N. induction ps as [|q ps IH]; [destruct J|]. cbn [filter List.length].
  assert (L : (List.length (filter (fun li => existsb (eqb li) (as_gds_list t)) ps) <= List.length ps)%nat).
  { clear. induction ps as [|x ps IH]; cbn; [lia|]. destruct (existsb (eqb x) (as_gds_list t)); cbn; lia. }
  destruct J as [->|J].
  - replace (existsb (eqb p) (as_gds_list t)) with false; [lia|]. symmetry. apply Bool.not_true_is_false. intros X. apply existsb_exists in X.
    destruct X as (y & X & E). apply (proj1 (eqb_true _ _)) in E. now subst.
  - specialize (IH J). destruct (existsb (eqb q) (as_gds_list t)); cbn; lia.
Qed.
