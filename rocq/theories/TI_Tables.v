(** The capacitance tables and the stack lookup of tech_info.py. *)
From Coq Require Import String.
From Verif Require Import PyBase PyLib SW_Model TI_Model TI_Spec.
Local Open Scope list_scope.

Lemma is_last_snoc {A} (P : A -> Prop) l x y : P x -> (is_last P (l ++ [x]) y <-> y = x).
Proof.
  intros Px. split.
  - intros (a & b & E & Py & N). destruct b as [|z b] using rev_ind.
    + apply app_inj_tail in E. destruct E; congruence.
    + clear IHb. rewrite app_comm_cons, app_assoc in E. apply app_inj_tail in E. destruct E as [_ <-].
      exfalso. apply (N x); [apply in_or_app; right; left; reflexivity | exact Px].
  - intros ->. exists l, []. repeat split; [exact Px | intros y []].
Qed.
Lemma is_last_snoc_not {A} (P : A -> Prop) l x y : ~ P x -> (is_last P (l ++ [x]) y <-> is_last P l y).
Proof.
  intros Px. split.
  - intros (a & b & E & Py & N). destruct b as [|z b] using rev_ind.
    + apply app_inj_tail in E. destruct E; subst; contradiction.
    + clear IHb. rewrite app_comm_cons, app_assoc in E. apply app_inj_tail in E. destruct E as [-> <-].
      exists a, b. repeat split; [exact Py | intros w J; apply N, in_or_app; left; exact J].
  - intros (a & b & -> & Py & N). exists a, (b ++ [x]). split; [|split; [exact Py|]].
    + rewrite <- app_assoc. reflexivity.
    + intros w J. apply in_app_or in J. destruct J as [J|[<-|[]]]; [apply N, J | exact Px].
Qed.
Lemma is_last_In {A} (P : A -> Prop) l x : is_last P l x -> In x l /\ P x.
Proof. intros (a & b & -> & Px & _). split; [apply in_or_app; right; left; reflexivity | exact Px]. Qed.

Section Keys.
Context {V : Type}.
Lemma by_key_snoc (key : V -> string) l x : by_key key (l ++ [x]) = dset (by_key key l) (key x) x.
Proof. unfold by_key. rewrite fold_left_app. reflexivity. Qed.
Lemma by_key_wf (key : V -> string) l : dwf (by_key key l).
Proof. induction l as [|x l IH] using rev_ind; [constructor|]. rewrite by_key_snoc. apply dwf_dset, IH. Qed.
Lemma by_key_get (key : V -> string) l k v : dget (by_key key l) k = Some v <-> is_last (fun x => key x = k) l v.
Proof.
  induction l as [|x l IH] using rev_ind.
  - split; [discriminate|]. intros (a & b & E & _). destruct a; discriminate.
  - rewrite by_key_snoc, dget_dset. destruct (eq_dec k (key x)) as [->|N].
    + rewrite is_last_snoc by reflexivity. split; congruence.
    + rewrite is_last_snoc_not by congruence. exact IH.
Qed.
Lemma by_key_keys (key : V -> string) l k : In k (dkeys (by_key key l)) <-> exists x, In x l /\ key x = k.
Proof.
  induction l as [|x l IH] using rev_ind.
  - split; [intros [] | intros (x & [] & _)].
  - rewrite by_key_snoc, dkeys_dset_in, IH. split.
    + intros [->|(y & J & E)]; [exists x | exists y]; (split; [apply in_or_app|]); auto. right; left; reflexivity.
    + intros (y & J & E). apply in_app_or in J. destruct J as [J|[<-|[]]]; [right; exists y; auto | left; auto].
Qed.

Variables k1 k2 : V -> string.
Lemma row_get l a b v :
  dget (by_key k2 (filter (fun y => eqb (k1 y) a) l)) b = Some v <-> is_last (fun x => k1 x = a /\ k2 x = b) l v.
Proof.
  induction l as [|x l IH] using rev_ind.
  - split; [discriminate|]. intros (p & q & E & _). destruct p; discriminate.
  - rewrite filter_app. cbn [filter]. destruct (eqb (k1 x) a) eqn:E.
    + apply eqb_eq in E. rewrite by_key_snoc, dget_dset. destruct (eq_dec b (k2 x)) as [->|N].
      * rewrite is_last_snoc by (split; [exact E | reflexivity]). split; congruence.
      * rewrite is_last_snoc_not by (intros [_ X]; congruence). exact IH.
    + apply eqb_neq in E. rewrite app_nil_r, is_last_snoc_not by (intros [X _]; congruence). exact IH.
Qed.
(** the outer comprehension over a part [m] of the table *)
Lemma nested_get l : forall m d a,
  dget (fold_left (fun d x => dset d (k1 x) (by_key k2 (filter (fun y => eqb (k1 y) (k1 x)) l))) m d) a =
  if existsb (fun x => eqb (k1 x) a) m then Some (by_key k2 (filter (fun y => eqb (k1 y) a) l)) else dget d a.
Proof.
  induction m as [|x m IH]; intros d a; cbn [fold_left existsb]; [reflexivity|].
  rewrite IH. destruct (existsb _ m) eqn:M; [rewrite orb_true_r; reflexivity|]. rewrite orb_false_r, dget_dset.
  destruct (eq_dec a (k1 x)) as [->|N]; [rewrite eqb_refl; reflexivity|].
  rewrite (proj2 (eqb_false (k1 x) a)) by congruence. reflexivity.
Qed.
Lemma nested_wf l : forall m d, dwf d ->
  dwf (fold_left (fun d x => dset d (k1 x) (by_key k2 (filter (fun y => eqb (k1 y) (k1 x)) l))) m d).
Proof. induction m as [|x m IH]; intros d W; cbn [fold_left]; [exact W|]. apply IH, dwf_dset, W. Qed.
Lemma nested_row l a row : In (a, row) (nested k1 k2 l) ->
  row = by_key k2 (filter (fun y => eqb (k1 y) a) l) /\ exists x, In x l /\ k1 x = a.
Proof.
  intros J. assert (W : dwf (nested k1 k2 l)) by (apply nested_wf; constructor).
  assert (G : dget (nested k1 k2 l) a = Some row) by (apply In_dget; assumption). unfold nested in G. rewrite nested_get in G.
  destruct (existsb _ l) eqn:E; [|discriminate]. split; [congruence|].
  apply existsb_exists in E. destruct E as (x & Jx & Ex). exists x. split; [exact Jx | apply eqb_eq, Ex].
Qed.
Lemma nested_at2 l a b v : at2 (nested k1 k2 l) a b = Some v <-> is_last (fun x => k1 x = a /\ k2 x = b) l v.
Proof.
  unfold at2, nested. rewrite nested_get. destruct (existsb _ l) eqn:E.
  - apply row_get.
  - cbn. split; [discriminate|]. intros L. apply is_last_In in L. destruct L as [J [Ea _]]. exfalso.
    assert (X : existsb (fun x => eqb (k1 x) a) l = true); [|congruence].
    apply existsb_exists. exists v. split; [exact J | apply eqb_true, Ea].
Qed.

(** *** merging *)
Lemma put_or_create_at2 (d : table V) x y v a b :
  at2 (put_or_create d x y v) a b = if eq_dec a x then if eq_dec b y then Some v else at2 d a b else at2 d a b.
Proof.
  unfold put_or_create, at2. destruct (dget d x) as [row|] eqn:E; rewrite dget_dset; destruct (eq_dec a x) as [->|N]; auto.
  - rewrite dget_dset, E. reflexivity.
  - rewrite E. cbn [dget]. destruct (eq_dec b y); reflexivity.
Qed.
Lemma put_or_create_key (d : table V) x y v a :
  dget (put_or_create d x y v) a <> None <-> dget d a <> None \/ a = x.
Proof.
  unfold put_or_create. destruct (dget d x) as [row|] eqn:E; rewrite dget_dset; destruct (eq_dec a x) as [->|N];
    (split; [intros X; auto | intros [X|X]; congruence]).
Qed.
Lemma merge_row_at2 x row : forall d a b, dwf row ->
  at2 (fold_left (fun (d : table V) e2 => put_or_create d x (fst e2) (snd e2)) row d) a b =
  if eq_dec a x then match dget row b with Some v => Some v | None => at2 d a b end else at2 d a b.
Proof.
  induction row as [|[y v] row IH]; intros d a b W; cbn [fold_left fst snd].
  - destruct (eq_dec a x); reflexivity.
  - inversion W as [|? ? N W']; subst. rewrite IH by exact W'. rewrite put_or_create_at2. cbn [dget].
    destruct (eq_dec a x) as [->|Na]; [|reflexivity]. destruct (eq_dec b y) as [->|Nb]; [|reflexivity].
    cbn in N. rewrite (proj2 (dget_None row y) N). reflexivity.
Qed.
Lemma merge_row_key x row : forall d a,
  dget (fold_left (fun (d : table V) e2 => put_or_create d x (fst e2) (snd e2)) row d) a <> None <->
  dget d a <> None \/ (a = x /\ row <> []).
Proof.
  induction row as [|[y v] row IH]; intros d a; cbn [fold_left fst snd].
  - split; [auto | intros [X|[_ X]]; congruence].
  - rewrite IH, put_or_create_key. split.
    + intros [[X|X]|[X _]]; auto; right; (split; [exact X | discriminate]).
    + intros [X|[X _]]; auto.
Qed.
Definition merge (d2 d : table V) : table V :=
  fold_left (fun d e => fold_left (fun d e2 => put_or_create d (fst e) (fst e2) (snd e2)) (snd e) d) d2 d.
Lemma merge_at2 d2 : forall d a b, dwf d2 -> (forall x row, In (x, row) d2 -> dwf row) ->
  at2 (merge d2 d) a b = match at2 d2 a b with Some v => Some v | None => at2 d a b end.
Proof.
  unfold merge. induction d2 as [|[x row] d2 IH]; intros d a b W R; cbn [fold_left fst snd]; [reflexivity|].
  inversion W as [|? ? N W']; subst. rewrite IH; [|exact W' | intros z r J; apply (R z); right; exact J].
  rewrite merge_row_at2 by (apply (R x); left; reflexivity). unfold at2. cbn [dget].
  destruct (eq_dec a x) as [->|Na]; [|reflexivity]. cbn in N. rewrite (proj2 (dget_None d2 x) N). reflexivity.
Qed.
Lemma merge_key d2 : forall d a, (forall x row, In (x, row) d2 -> row <> []) ->
  (dget (merge d2 d) a <> None <-> dget d a <> None \/ In a (dkeys d2)).
Proof.
  unfold merge. induction d2 as [|[x row] d2 IH]; intros d a R; cbn [fold_left fst snd dkeys map In].
  - split; [auto | intros [X|[]]; exact X].
  - rewrite IH by (intros z r J; apply (R z); right; exact J). rewrite merge_row_key. split.
    + intros [[X|[X _]]|X]; auto.
    + intros [X|[X|X]]; auto. left; right. split; [auto | apply (R x); left; reflexivity].
Qed.

(** the version that raises *)
Lemma put_present (d : table V) x y v : dget d x <> None -> put (Some d) x y v = Some (put_or_create d x y v).
Proof. intros K. unfold put, put_or_create. destruct (dget d x); [reflexivity | exfalso; apply K; reflexivity]. Qed.
Lemma put_row_present x row : forall d, dget d x <> None ->
  fold_left (fun (d : option (table V)) e2 => put d x (fst e2) (snd e2)) row (Some d) =
  Some (fold_left (fun (d : table V) e2 => put_or_create d x (fst e2) (snd e2)) row d).
Proof.
  induction row as [|[y v] row IH]; intros d K; cbn [fold_left fst snd]; [reflexivity|].
  rewrite put_present by exact K. apply IH. apply put_or_create_key. auto.
Qed.
Lemma put_row_none x row : fold_left (fun (d : option (table V)) e2 => put d x (fst e2) (snd e2)) row None = None.
Proof. induction row as [|e row IH]; [reflexivity | exact IH]. Qed.
Definition merge_strict (d2 : table V) (d : option (table V)) : option (table V) :=
  fold_left (fun d e => fold_left (fun d e2 => put d (fst e) (fst e2) (snd e2)) (snd e) d) d2 d.
Lemma merge_strict_none d2 : merge_strict d2 None = None.
Proof. unfold merge_strict. induction d2 as [|e d2 IH]; cbn [fold_left]; [reflexivity|]. rewrite put_row_none. exact IH. Qed.
Lemma merge_strict_present d2 : forall d, (forall x, In x (dkeys d2) -> dget d x <> None) ->
  merge_strict d2 (Some d) = Some (merge d2 d).
Proof.
  unfold merge_strict, merge. induction d2 as [|[x row] d2 IH]; intros d K; cbn [fold_left fst snd]; [reflexivity|].
  rewrite put_row_present by (apply K; left; reflexivity). apply IH. intros z J. apply merge_row_key. left. apply K. right. exact J.
Qed.
Lemma merge_strict_absent d2 : forall d x, (forall x row, In (x, row) d2 -> row <> []) -> In x (dkeys d2) -> dget d x = None ->
  merge_strict d2 (Some d) = None.
Proof.
  induction d2 as [|[y row] d2 IH]; intros d x R J K; [destruct J|].
  assert (Ry : row <> []) by (apply (R y); left; reflexivity).
  change (merge_strict ((y, row) :: d2) (Some d)) with
    (merge_strict d2 (fold_left (fun d e2 => put d y (fst e2) (snd e2)) row (Some d))).
  destruct (dget d y) as [r|] eqn:G.
  - rewrite put_row_present by congruence. apply (IH _ x); [intros z q Q; apply (R z); right; exact Q | |].
    + destruct J as [J|J]; [cbn in J; congruence | exact J].
    + match goal with |- ?t = None => destruct t eqn:F; [|reflexivity] end. exfalso.
      assert (X : dget d x <> None \/ (x = y /\ row <> [])) by (apply merge_row_key; rewrite F; discriminate).
      destruct X as [X|[X _]]; congruence.
  - destruct row as [|e row]; [congruence|]. cbn [fold_left fst snd]. unfold put at 2. rewrite G, put_row_none. apply merge_strict_none.
Qed.
End Keys.

Lemma map_get {A B} (f : string -> A -> B) (d : dict string A) k :
  dget (map (fun e => (fst e, f (fst e) (snd e))) d) k = match dget d k with Some v => Some (f k v) | None => None end.
Proof. induction d as [|[x v] d IH]; cbn; [reflexivity|]. destruct (eq_dec k x) as [->|N]; [reflexivity | exact IH]. Qed.

Lemma nested_rows {V} (k1 k2 : V -> string) l x row : In (x, row) (nested k1 k2 l) -> dwf row /\ row <> [].
Proof.
  intros J. apply nested_row in J. destruct J as (-> & y & Jy & Ey). split; [apply by_key_wf|]. intros E.
  assert (X : In (k2 y) (dkeys (by_key k2 (filter (fun z => eqb (k1 z) x) l)))).
  { apply by_key_keys. exists y. split; [|reflexivity]. apply filter_In. split; [exact Jy | apply eqb_true, Ey]. }
  rewrite E in X. destruct X.
Qed.
Lemma nested_keys {V} (k1 k2 : V -> string) l a : In a (dkeys (nested k1 k2 l)) <-> exists x, In x l /\ k1 x = a.
Proof.
  split.
  - intros J. unfold dkeys in J. apply in_map_iff in J. destruct J as ([x row] & E & J). cbn in E. subst x.
    apply nested_row in J. exact (proj2 J).
  - intros (x & J & E). destruct (in_dec eq_dec a (dkeys (nested k1 k2 l))) as [I|N]; [exact I|]. exfalso.
    apply dget_None in N. unfold nested in N. rewrite nested_get in N.
    assert (X : existsb (fun x => eqb (k1 x) a) l = true) by (apply existsb_exists; exists x; split; [exact J | apply eqb_true, E]).
    rewrite X in N. discriminate.
Qed.

Section Tables.
Variable subs : list subcap.
Lemma sub_get k s : dget (substrate_caps subs) k = Some s -> is_last (fun s => sc_layer s = k) subs s.
Proof. apply by_key_get. Qed.

Lemma overlap_at2 ovs top bot v : at2 (overlap_table subs ovs) top bot = Some v <-> overlap_entry subs ovs top bot v.
Proof.
  unfold overlap_table. set (d := map _ _).
  change (fold_left _ (nested oc_top oc_bottom ovs) d) with (merge (nested oc_top oc_bottom ovs) d).
  rewrite merge_at2; [| apply nested_wf; constructor | intros x row J; apply (nested_rows _ _ _ _ _ J)].
  assert (D : at2 d top bot = match dget (substrate_caps subs) top with
      | Some s => if eq_dec bot VSUBS then Some (OvCap (sc_layer s) VSUBS (sc_area s)) else None | None => None end).
  { unfold d, at2. rewrite (map_get (fun _ s => [(VSUBS, OvCap (sc_layer s) VSUBS (sc_area s))])).
    destruct (dget (substrate_caps subs) top); reflexivity. }
  unfold overlap_entry. destruct (at2 (nested oc_top oc_bottom ovs) top bot) as [w|] eqn:E.
  - pose proof E as L. apply nested_at2 in L. split.
    + intros [= ->]. left. exact L.
    + intros [X|(X & _)]; [apply nested_at2 in X; congruence|]. exfalso. apply is_last_In in L. apply (X w); apply L.
  - assert (A : forall o, In o ovs -> ~ (oc_top o = top /\ oc_bottom o = bot)).
    { intros o J [T B]. assert (K : In bot (dkeys (by_key oc_bottom (filter (fun y => eqb (oc_top y) top) ovs)))).
      { apply by_key_keys. exists o. split; [|exact B]. apply filter_In. split; [exact J | apply eqb_true, T]. }
      apply dkeys_dget in K. destruct K as [w K]. apply row_get, nested_at2 in K. congruence. }
    rewrite D. split.
    + intros X. right. split; [exact A|]. destruct (dget (substrate_caps subs) top) as [s|] eqn:G; [|discriminate].
      destruct (eq_dec bot VSUBS) as [->|]; [|discriminate]. split; [reflexivity|]. apply sub_get in G.
      exists s. split; [exact G|]. apply is_last_In in G. destruct G as [_ G]. cbn in G. rewrite G in X. unfold VSUBS in X. congruence.
    + intros [X|(_ & -> & s & L & ->)]; [apply is_last_In in X; exfalso; apply (A v); apply X|].
      apply by_key_get in L. unfold substrate_caps. rewrite L. destruct (eq_dec "VSUBS"%string VSUBS) as [_|N]; [|exfalso; apply N; reflexivity].
      apply by_key_get, is_last_In in L. destruct L as [_ L]. cbn in L. rewrite L. reflexivity.
Qed.
Lemma overlap_key ovs top : dget (overlap_table subs ovs) top <> None <->
  (exists o, In o ovs /\ oc_top o = top) \/ (exists s, In s subs /\ sc_layer s = top).
Proof.
  unfold overlap_table. set (d := map _ _).
  change (fold_left _ (nested oc_top oc_bottom ovs) d) with (merge (nested oc_top oc_bottom ovs) d).
  rewrite merge_key by (intros x row J; apply (nested_rows _ _ _ _ _ J)).
  etransitivity; [apply or_iff_compat_l, nested_keys|].
  assert (D : dget d top <> None <-> exists s, In s subs /\ sc_layer s = top).
  { unfold d. rewrite (map_get (fun _ s => [(VSUBS, OvCap (sc_layer s) VSUBS (sc_area s))])).
    rewrite <- by_key_keys. fold (substrate_caps subs). destruct (dget (substrate_caps subs) top) eqn:G.
    - split; [intros _; apply dget_Some_key in G; exact G | discriminate].
    - apply dget_None in G. split; [congruence | intros X; contradiction]. }
  tauto.
Qed.

Section Side.
Variable sos : list socap.
Let d : table socap := map (fun e : string * subcap => (fst e, [(VSUBS, SoCap (sc_layer (snd e)) VSUBS (sc_perimeter (snd e)))])) (substrate_caps subs).
Lemma side_d_key k : dget d k <> None <-> exists s, In s subs /\ sc_layer s = k.
Proof.
  unfold d. rewrite (map_get (fun _ s => [(VSUBS, SoCap (sc_layer s) VSUBS (sc_perimeter s))])).
  rewrite <- by_key_keys. fold (substrate_caps subs). destruct (dget (substrate_caps subs) k) eqn:G.
  - split; [intros _; apply dget_Some_key in G; exact G | discriminate].
  - apply dget_None in G. split; [intros X; exfalso; apply X; reflexivity | intros X; contradiction].
Qed.
Lemma side_fails x : In x sos -> (forall s, In s subs -> sc_layer s <> so_in x) -> side_overlap_table subs sos = None.
Proof.
  intros J N. apply (merge_strict_absent (nested so_in so_out sos) d (so_in x)).
  - intros y row I. apply (nested_rows _ _ _ _ _ I).
  - apply nested_keys. exists x. auto.
  - destruct (dget d (so_in x)) eqn:G; [|reflexivity]. exfalso.
    assert (X : dget d (so_in x) <> None) by congruence. apply side_d_key in X. destruct X as (s & Js & Es). apply (N s); assumption.
Qed.
Lemma side_ok : (forall x, In x sos -> exists s, In s subs /\ sc_layer s = so_in x) ->
  side_overlap_table subs sos = Some (merge (nested so_in so_out sos) d).
Proof.
  intros A. apply merge_strict_present. intros k J. apply nested_keys in J. destruct J as (x & J & <-). apply side_d_key, A, J.
Qed.
Lemma side_at2 i o v : at2 (merge (nested so_in so_out sos) d) i o = Some v <-> side_overlap_entry subs sos i o v.
Proof.
  rewrite merge_at2; [| apply nested_wf; constructor | intros x row J; apply (nested_rows _ _ _ _ _ J)].
  assert (D : at2 d i o = match dget (substrate_caps subs) i with
      | Some s => if eq_dec o VSUBS then Some (SoCap (sc_layer s) VSUBS (sc_perimeter s)) else None | None => None end).
  { unfold d, at2. rewrite (map_get (fun _ s => [(VSUBS, SoCap (sc_layer s) VSUBS (sc_perimeter s))])).
    destruct (dget (substrate_caps subs) i); reflexivity. }
  unfold side_overlap_entry. destruct (at2 (nested so_in so_out sos) i o) as [w|] eqn:E.
  - pose proof E as L. apply nested_at2 in L. split.
    + intros [= ->]. left. exact L.
    + intros [X|(X & _)]; [apply nested_at2 in X; congruence|]. exfalso. apply is_last_In in L. apply (X w); apply L.
  - assert (A : forall x, In x sos -> ~ (so_in x = i /\ so_out x = o)).
    { intros x J [T B]. assert (K : In o (dkeys (by_key so_out (filter (fun y => eqb (so_in y) i) sos)))).
      { apply by_key_keys. exists x. split; [|exact B]. apply filter_In. split; [exact J | apply eqb_true, T]. }
      apply dkeys_dget in K. destruct K as [w K]. apply row_get, nested_at2 in K. congruence. }
    rewrite D. split.
    + intros X. right. split; [exact A|]. destruct (dget (substrate_caps subs) i) as [s|] eqn:G; [|discriminate].
      destruct (eq_dec o VSUBS) as [->|]; [|discriminate]. split; [reflexivity|]. apply sub_get in G.
      exists s. split; [exact G|]. apply is_last_In in G. destruct G as [_ G]. cbn in G. rewrite G in X. unfold VSUBS in X. congruence.
    + intros [X|(_ & -> & s & L & ->)]; [apply is_last_In in X; exfalso; apply (A v); apply X|].
      apply by_key_get in L. unfold substrate_caps. rewrite L. destruct (eq_dec "VSUBS"%string VSUBS) as [_|N]; [|exfalso; apply N; reflexivity].
      apply by_key_get, is_last_In in L. destruct L as [_ L]. cbn in L. rewrite L. reflexivity.
Qed.
End Side.
End Tables.

(** ** simple_dielectric_above_metal *)
Section Above.
Variables (included : string -> bool) (name : string).
Lemma sdam_skip pre : forall diel r, (forall l, In l pre -> s_name l <> name) ->
  sdam included name None diel (pre ++ r) = sdam included name None diel r.
Proof.
  induction pre as [|l pre IH]; intros diel r N; cbn [app sdam]; [reflexivity|].
  rewrite (proj2 (eqb_false (s_name l) name)) by (apply N; left; reflexivity). apply IH. intros x J. apply N. right. exact J.
Qed.
Lemma simple_not_metal l : is_simple l = true -> is_metal l = false.
Proof. unfold is_simple, is_metal. destruct (s_type l); congruence. Qed.
(** once a dielectric is chosen the rest of the stack only gives the height *)
Lemma sdam_chosen f d mid : forall r, (forall l, In l mid -> s_name l <> name /\ is_metal l = false) ->
  sdam included name (Some f) (Some d) (mid ++ r) = sdam included name (Some f) (Some d) r.
Proof.
  induction mid as [|l mid IH]; intros r N; cbn [app sdam]; [reflexivity|].
  destruct (N l (or_introl eq_refl)) as [A B]. rewrite (proj2 (eqb_false (s_name l) name) A), B.
  apply IH. intros x J. apply N. right. exact J.
Qed.
Lemma sdam_mid f mid : forall r, (forall l, In l mid -> s_name l <> name /\ is_metal l = false) ->
  sdam included name (Some f) None (mid ++ r) =
  match find is_simple mid with
  | None => sdam included name (Some f) None r
  | Some d => if included (s_name d) then sdam included name (Some f) (Some d) r else (None, 0%Qc)
  end.
Proof.
  induction mid as [|l mid IH]; intros r N; cbn [app sdam find]; [reflexivity|].
  destruct (N l (or_introl eq_refl)) as [A B]. rewrite (proj2 (eqb_false (s_name l) name) A), B.
  destruct (is_simple l).
  - destruct (included (s_name l)); [|reflexivity]. apply sdam_chosen. intros x J. apply N. right. exact J.
  - apply IH. intros x J. apply N. right. exact J.
Qed.
End Above.
