From Coq Require Import String Ascii DecimalString Permutation.
From Coq Require Import DecimalNat DecimalFacts.
From Verif Require Import PyBase PyLib ER_Model ER_Spec ER_Proofs NX_Model NX_Spec.
Set Implicit Arguments.
Local Open Scope Qc_scope.

Lemma nat_str_inj a b : nat_str a = nat_str b -> a = b.
Proof.
  unfold nat_str. intros E. apply (f_equal NilEmpty.uint_of_string) in E. rewrite !NilEmpty.usu in E.
  injection E as E. apply Unsigned.to_uint_inj, E.
Qed.
Lemma append_inj p : forall a b, String.append p a = String.append p b -> a = b.
Proof. induction p as [|c p IH]; cbn; intros a b E; [exact E|]. injection E as E. apply IH, E. Qed.

(** ** fresh ids *)
Lemma fresh_not_in l : ~ In (fresh_id l) (map n_id l).
Proof.
  intros J. pose proof (proj1 (list_max_le (map n_id l) (list_max (map n_id l))) (le_n _)) as F.
  rewrite Forall_forall in F. apply F in J. unfold fresh_id in J. lia.
Qed.
Definition ids_ok (c : circuit) := NoDup (map n_id (c_nets c)).
Lemma create_net_ids c s : ids_ok c -> ids_ok (fst (create_net c s)).
Proof.
  unfold ids_ok, create_net; cbn. intros N. rewrite map_app. cbn.
  apply Permutation_NoDup with (l := fresh_id (c_nets c) :: map n_id (c_nets c)); [apply Permutation_cons_append|].
  constructor; [apply fresh_not_in|exact N].
Qed.

(** ** the name table *)
Definition table_ok (c : circuit) (t : dict string knet) : Prop :=
  (forall s n, dget t s = Some n -> In n (c_nets c) /\ n_name n = s) /\
  (forall s, In s (dkeys t) <-> In s (map n_name (c_nets c))).
Lemma name_table_fold l : forall d s, dget (fold_left (fun d n => dset d (n_name n) n) l d) s =
  match find (fun n => eqb (n_name n) s) (rev l) with Some n => Some n | None => dget d s end.
Proof.
  induction l as [|a l IH] using rev_ind; intros d s; [reflexivity|].
  rewrite fold_left_app, rev_app_distr. cbn [fold_left rev app find]. rewrite dget_dset.
  destruct (eqb (n_name a) s) eqn:E.
  - apply eqb_eq in E. destruct (eq_dec s (n_name a)); [reflexivity|congruence].
  - apply eqb_neq in E. destruct (eq_dec s (n_name a)); [congruence|]. apply IH.
Qed.
Lemma name_table_get l s : dget (name_table l) s = find (fun n => eqb (n_name n) s) (rev l).
Proof. unfold name_table. rewrite name_table_fold. destruct (find _ _); reflexivity. Qed.
Lemma name_table_ok c : table_ok c (name_table (c_nets c)).
Proof.
  split.
  - intros s n. rewrite name_table_get. intros F. apply find_some in F. destruct F as [J E].
    apply in_rev in J. apply eqb_eq in E. auto.
  - intros s. split.
    + intros J. apply dkeys_dget in J. destruct J as [n F]. rewrite name_table_get in F. apply find_some in F.
      destruct F as [J E]. apply in_rev in J. apply eqb_eq in E. subst s. apply in_map, J.
    + intros J. destruct (dget (name_table (c_nets c)) s) eqn:G; [eapply dget_Some_key; eauto|].
      rewrite name_table_get in G. apply in_map_iff in J. destruct J as [n [E J]].
      apply in_rev in J. pose proof (find_none _ _ G n J) as X. cbn in X. rewrite E, eqb_refl in X. discriminate.
Qed.

(** [st'] extends [st] by nets with new names *)
Record extends (st st' : circuit * dict string knet) (names : list string) : Prop := {
  e_name : c_name (fst st') = c_name (fst st);
  e_dev : c_devices (fst st') = c_devices (fst st);
  e_tab : table_ok (fst st') (snd st');
  e_ids : ids_ok (fst st) -> ids_ok (fst st');
  e_old : forall s n, dget (snd st) s = Some n -> dget (snd st') s = Some n;
  e_nets : exists extra, c_nets (fst st') = c_nets (fst st) ++ extra /\ NoDup (map n_name extra) /\
    forall s, In s (map n_name extra) <-> In s names /\ ~ In s (map n_name (c_nets (fst st))) }.
Lemma extends_refl st : table_ok (fst st) (snd st) -> extends st st [].
Proof.
  intros T. constructor; auto. exists []. rewrite app_nil_r. split; [reflexivity|]. split; [constructor|].
  intros s. cbn. tauto.
Qed.
Lemma extends_trans a b c l m : extends a b l -> extends b c m -> extends a c (l ++ m).
Proof.
  intros [N1 D1 T1 I1 O1 (x1 & E1 & Nd1 & S1)] [N2 D2 T2 I2 O2 (x2 & E2 & Nd2 & S2)].
  constructor; try congruence; auto.
  exists (x1 ++ x2). rewrite E2, E1, app_assoc. split; [reflexivity|].
  assert (B : forall s, In s (map n_name (c_nets (fst b))) <-> In s (map n_name (c_nets (fst a))) \/ In s (map n_name x1)).
  { intros s. rewrite E1, map_app, in_app_iff. tauto. }
  split.
  - rewrite map_app. clear -Nd1 Nd2 S2 B.
    assert (Dj : forall s, In s (map n_name x1) -> ~ In s (map n_name x2)).
    { intros s J1 J2. apply S2 in J2. destruct J2 as [_ J2]. apply J2, B. auto. }
    clear B S2. revert Nd1 Dj. induction (map n_name x1) as [|y l IH]; cbn; intros N Dj; [exact Nd2|].
    inversion N; subst. constructor; [|apply IH; auto]. rewrite in_app_iff. intros [J|J]; [contradiction|].
    apply (Dj y); auto.
  - intros s. rewrite map_app, !in_app_iff, S1, S2, B, S1. destruct (in_dec string_dec s (map n_name (c_nets (fst a)))); [tauto|].
    destruct (in_dec string_dec s l); tauto.
Qed.
Lemma add_net_extends st s : table_ok (fst st) (snd st) -> extends st (add_net_if_needed st s) [s].
Proof.
  destruct st as [c t]. intros [T1 T2]. cbn [fst snd] in *. unfold add_net_if_needed. destruct (dmem t s) eqn:M.
  - constructor; cbn [fst snd]; auto; [split; auto|]. exists []. rewrite app_nil_r. split; [reflexivity|].
    split; [constructor|]. intros s'. cbn. apply dmem_true in M. apply T2 in M. split; [tauto|].
    intros [[<-|[]] N]. contradiction.
  - assert (NI : ~ In s (map n_name (c_nets c))).
    { intros J. apply T2 in J. apply dmem_true in J. congruence. }
    cbn [create_net fst snd]. constructor; cbn [fst snd c_name c_devices c_nets].
    + reflexivity.
    + reflexivity.
    + split.
      * intros s' n. rewrite dget_dset. cbn [c_nets]. destruct (eq_dec s' s) as [->|].
        -- intros [= <-]. split; [|reflexivity]. apply in_app_iff. right; left; reflexivity.
        -- intros G. apply T1 in G. rewrite in_app_iff. tauto.
      * intros s'. cbn [c_nets]. rewrite dkeys_dset_in, T2, map_app, in_app_iff. cbn. intuition.
    + intros I. apply (create_net_ids s I).
    + intros s' n G. rewrite dget_dset. destruct (eq_dec s' s) as [->|]; [|exact G].
      apply dmem_false in M. congruence.
    + exists [KNet (fresh_id (c_nets c)) s]. split; [reflexivity|]. split; [repeat constructor; intros []|].
      intros s'. cbn. intuition congruence.
Qed.
Lemma extends_ok a b l : extends a b l -> table_ok (fst b) (snd b).
Proof. intros E. apply E. Qed.
Lemma add_key_nets_extends items : forall st, table_ok (fst st) (snd st) ->
  extends st (add_key_nets st items) (names_of items).
Proof.
  induction items as [|e items IH]; intros st T; [apply extends_refl, T|].
  cbn [add_key_nets fold_left names_of flat_map].
  pose proof (add_net_extends st (fst (fst e)) T) as E1.
  pose proof (add_net_extends _ (snd (fst e)) (extends_ok E1)) as E2.
  pose proof (extends_trans E1 E2) as E12.
  pose proof (IH _ (extends_ok E12)) as E3. exact (extends_trans E12 E3).
Qed.

(** ** devices *)
Lemma add_devices_ok t cl param : forall items idx c,
  (forall s, In s (names_of items) -> In s (dkeys t)) ->
  exists new, add_devices t cl param idx items c = Some (Circuit (c_name c) (c_nets c) (c_devices c ++ new)) /\
    Forall2 (fun d e => exists k n1 n2, dget t (fst (fst e)) = Some n1 /\ dget t (snd (fst e)) = Some n2 /\
        (idx <= k)%nat /\ d = ext_device cl param k n1 n2 (snd e)) new items /\
    NoDup (map d_name new) /\ map d_name new = map (fun i => ("ext_" ++ nat_str i)%string) (seq (S idx) (List.length items)).
Proof.
  assert (G : forall items idx c,
    (forall s, In s (names_of items) -> In s (dkeys t)) ->
    exists new, add_devices t cl param idx items c = Some (Circuit (c_name c) (c_nets c) (c_devices c ++ new)) /\
    Forall2 (fun d e => exists k n1 n2, dget t (fst (fst e)) = Some n1 /\ dget t (snd (fst e)) = Some n2 /\
        (idx <= k)%nat /\ d = ext_device cl param k n1 n2 (snd e)) new items /\
    NoDup (map d_name new) /\ (forall d, In d new -> exists k, (idx <= k)%nat /\ d_name d = ("ext_" ++ nat_str (k + 1))%string) /\
    map d_name new = map (fun i => ("ext_" ++ nat_str i)%string) (seq (S idx) (List.length items))).
  { induction items as [|[k v] items IH]; intros idx c H.
    - exists []. cbn. rewrite app_nil_r. destruct c; cbn. split; [reflexivity|]. split; [constructor|]. split; [constructor|]. split; [intros d []|reflexivity].
    - cbn [add_devices].
      assert (H1 : In (fst k) (dkeys t)) by (apply H; left; reflexivity).
      assert (H2 : In (snd k) (dkeys t)) by (apply H; right; left; reflexivity).
      apply dkeys_dget in H1, H2. destruct H1 as [n1 H1], H2 as [n2 H2]. rewrite H1, H2.
      destruct (IH (S idx) (create_device c (ext_device cl param idx n1 n2 v))) as (new & E & F & N & Nm & Nn).
      { intros s J. apply H. right; right. exact J. }
      exists (ext_device cl param idx n1 n2 v :: new). rewrite E. cbn. rewrite <- app_assoc. split; [reflexivity|].
      split; [|split; [|split]].
      + constructor.
        * exists idx, n1, n2. auto.
        * eapply Forall2_impl; [|exact F]. intros d e (k' & m1 & m2 & A & B & C & D). exists k', m1, m2. repeat split; auto. lia.
      + constructor; [|exact N]. intros J. apply in_map_iff in J. destruct J as [d [E2 J]]. apply Nm in J.
        destruct J as [k' [L E3]]. rewrite E3 in E2. injection E2 as E2. apply nat_str_inj in E2. lia.
      + intros d [<-|J]; [exists idx; auto|]. apply Nm in J. destruct J as [k' [L J]]. exists k'. split; [lia|exact J].
      + cbn [map seq List.length d_name]. rewrite Nn, Nat.add_1_r. reflexivity. }
  intros items idx c H. destruct (G items idx c H) as (new & A & B & C & _ & D). eauto.
Qed.

Lemma names_of_perm l m s : Permutation l m -> In s (names_of l) <-> In s (names_of m).
Proof.
  intros P. unfold names_of. rewrite !in_flat_map. split; intros [e [J K]]; exists e; (split; [|exact K]);
  eapply Permutation_in; try exact J; [|symmetry]; exact P.
Qed.

Definition ext_names (n : nat) : list string := map (fun i => ("ext_" ++ nat_str i)%string) (seq 1 n).
Lemma expand_circuit_items c sm bb : exists c', expand_circuit c sm bb = Some c' /\ expanded c c' sm bb /\
  exists kept caps ress, c_devices c' = kept ++ caps ++ ress /\
    Forall2 (represents c' CCapacitor "C") caps (py_sorted item_lt (capacitances sm)) /\
    map d_name caps = ext_names (List.length (py_sorted item_lt (capacitances sm))) /\
    Forall2 (represents c' CResistor "R") ress (py_sorted item_lt (resistances sm)) /\
    map d_name ress = ext_names (List.length (py_sorted item_lt (resistances sm))).
Proof.
  unfold expand_circuit.
  set (c0 := if bb then c else remove_whiteboxed c).
  assert (N0 : c_name c0 = c_name c /\ c_nets c0 = c_nets c) by (unfold c0; destruct bb; auto). destruct N0 as [Nm0 Nt0].
  destruct (create_net c0 "FC_GND") as [c1 g] eqn:E1. destruct (create_net c1 "VSUBS") as [c2 v] eqn:E2.
  assert (A1 : c1 = fst (create_net c0 "FC_GND")) by (rewrite E1; reflexivity).
  assert (A2 : c2 = fst (create_net c1 "VSUBS")) by (rewrite E2; reflexivity).
  assert (NT : c_nets c2 = c_nets c ++ [g; v] /\ n_name g = "FC_GND"%string /\ n_name v = "VSUBS"%string /\
     c_name c2 = c_name c /\ c_devices c2 = c_devices c0).
  { unfold create_net in E1, E2. injection E1 as <- <-. injection E2 as <- <-. cbn. rewrite Nt0, <- app_assoc. auto. }
  destruct NT as (NT & Ng & Nv & Nm & Dv).
  set (ci := py_sorted item_lt (capacitances sm)). set (ri := py_sorted item_lt (resistances sm)).
  assert (Pc : Permutation ci (capacitances sm)) by (symmetry; apply py_sorted_perm).
  assert (Pr : Permutation ri (resistances sm)) by (symmetry; apply py_sorted_perm).
  pose proof (add_key_nets_extends ci (c2, name_table (c_nets c2)) (name_table_ok c2)) as X1.
  pose proof (add_key_nets_extends ri _ (extends_ok X1)) as X2. pose proof (extends_trans X1 X2) as X.
  destruct (add_key_nets (add_key_nets (c2, name_table (c_nets c2)) ci) ri) as [c3 t].
  destruct X as [Xn Xd [T1 T2] Xi _ (extra & Xe & Xnd & Xs)]. cbn [fst snd] in *.
  assert (Keys : forall s, In s (names_of (ci ++ ri)) -> In s (dkeys t)).
  { intros s J. apply T2. rewrite Xe, map_app, in_app_iff.
    destruct (in_dec string_dec s (map n_name (c_nets c2))); [auto|]. right. apply Xs.
    unfold names_of in J. rewrite flat_map_app in J. auto. }
  assert (Kc : forall s, In s (names_of ci) -> In s (dkeys t)).
  { intros s J. apply Keys. unfold names_of. rewrite flat_map_app. apply in_app_iff. auto. }
  assert (Kr : forall s, In s (names_of ri) -> In s (dkeys t)).
  { intros s J. apply Keys. unfold names_of. rewrite flat_map_app. apply in_app_iff. auto. }
  destruct (add_devices_ok t CCapacitor "C" ci 0 c3 Kc) as (caps & Ec & Fc & NDc & NMc). rewrite Ec.
  destruct (add_devices_ok t CResistor "R" ri 0 (Circuit (c_name c3) (c_nets c3) (c_devices c3 ++ caps)) Kr) as (ress & Er & Fr & NDr & NMr).
  rewrite Er. cbn [c_name c_nets c_devices]. eexists. split; [reflexivity|].
  assert (Rep : forall cl param new items, Forall2 (fun d e => exists k n1 n2, dget t (fst (fst e)) = Some n1 /\
        dget t (snd (fst e)) = Some n2 /\ (0 <= k)%nat /\ d = ext_device cl param k n1 n2 (snd e)) new items ->
     forall c', c_nets c' = c_nets c3 -> Forall2 (represents c' cl param) new items).
  { intros cl param new items F c' En. eapply Forall2_impl; [|exact F].
    intros d e (k & n1 & n2 & G1 & G2 & _ & ->). split; [reflexivity|]. split; [reflexivity|].
    exists n1, n2. rewrite En. apply T1 in G1, G2. cbn. tauto. }
  split; [|exists (c_devices c0), caps, ress; cbn [c_devices]; rewrite Xd, Dv, <- app_assoc; split; [reflexivity|];
    split; [eapply Rep; eauto|]; split; [exact NMc|]; split; [eapply Rep; eauto|exact NMr]].
  constructor; cbn [c_name c_nets c_devices].
  - congruence.
  - exists g, v, extra. rewrite Xe, NT, <- app_assoc. split; [reflexivity|]. split; [exact Ng|]. split; [exact Nv|].
    split; [exact Xnd|]. intros s.
    assert (Q : In s (names_of ci ++ names_of ri) <-> In s (names_of (capacitances sm ++ resistances sm))).
    { unfold names_of at 3. rewrite flat_map_app, !in_app_iff.
      rewrite (names_of_perm s Pc), (names_of_perm s Pr). reflexivity. }
    rewrite Xs, Q, NT, map_app, (in_app_iff (map n_name (c_nets c))). cbn [map In]. rewrite Ng, Nv. intuition.
  - intros I. apply Xi. rewrite A2. apply create_net_ids. rewrite A1. apply create_net_ids. unfold ids_ok. rewrite Nt0. exact I.
  - exists (c_devices c0), caps, ress, ci, ri. split.
    { rewrite Xd, Dv, <- app_assoc. reflexivity. }
    split; [intros ->; reflexivity|]. split.
    { unfold c0. intros ->. intros d. cbn. rewrite filter_In. unfold is_cap_device.
      destruct (d_class d); cbn; intuition congruence. }
    split; [exact Pc|]. split; [eapply Rep; eauto|]. split; [exact Pr|]. split; [eapply Rep; eauto|]. auto.
Qed.
Lemma expand_circuit_ok c sm bb : exists c', expand_circuit c sm bb = Some c' /\ expanded c c' sm bb.
Proof. destruct (expand_circuit_items c sm bb) as (c' & A & B & _). eauto. Qed.

Lemma on_circuit_ok f name l : (forall c, exists c', f c = Some c') -> In name (map c_name l) ->
  exists pre c post c', l = pre ++ c :: post /\ c_name c = name /\ ~ In name (map c_name pre) /\ f c = Some c' /\
    on_circuit f name l = Some (pre ++ c' :: post).
Proof.
  intros F. induction l as [|c l IH]; [intros []|]. intros J. cbn [on_circuit].
  destruct (eqb (c_name c) name) eqn:E.
  - apply eqb_eq in E. destruct (F c) as [c' Q]. rewrite Q. exists [], c, l, c'. cbn. auto.
  - apply eqb_neq in E. destruct J as [J|J]; [contradiction|].
    destruct (IH J) as (pre & c1 & post & c' & -> & A & B & C & D). rewrite D.
    exists (c :: pre), c1, post, c'. cbn. repeat split; auto. intuition.
Qed.
Lemma on_circuit_none f name l : ~ In name (map c_name l) -> on_circuit f name l = None.
Proof.
  induction l as [|c l IH]; [reflexivity|]. cbn. intros N. assert (E : eqb (c_name c) name = false) by (apply eqb_false; tauto).
  rewrite E, IH by tauto. reflexivity.
Qed.

(** ** order independence of the sort *)
Lemma couple_lt_irrefl k : couple_lt k k = false.
Proof. unfold couple_lt. rewrite strlt_irrefl. apply strlt_irrefl. Qed.
Lemma strlt_weak x y z : strlt x y = true -> strlt x z = true \/ strlt z y = true.
Proof.
  intros L. destruct (strlt_total x z) as [A|[->|A]]; [auto|auto|]. right. eapply strlt_trans; eauto.
Qed.
Lemma couple_lt_spec k k' : couple_lt k k' = true <->
  strlt (casefold (fst k)) (casefold (fst k')) = true \/
  (casefold (fst k) = casefold (fst k') /\ strlt (casefold (snd k)) (casefold (snd k')) = true).
Proof.
  unfold couple_lt. destruct (strlt_total (casefold (fst k)) (casefold (fst k'))) as [A|[A|A]].
  - rewrite A. tauto.
  - rewrite A, strlt_irrefl. intuition congruence.
  - rewrite A. rewrite (strlt_asym _ _ A). split; [discriminate|]. intros [B|[B _]]; [congruence|].
    rewrite B, strlt_irrefl in A. discriminate.
Qed.
Lemma couple_lt_trans x y z : couple_lt x y = true -> couple_lt y z = true -> couple_lt x z = true.
Proof.
  rewrite !couple_lt_spec. intros [A|[A A']] [B|[B B']].
  - left. eapply strlt_trans; eauto.
  - left. congruence.
  - left. congruence.
  - right. split; [congruence|]. eapply strlt_trans; eauto.
Qed.
Lemma couple_lt_weak x y z : couple_lt x y = true -> couple_lt x z = true \/ couple_lt z y = true.
Proof.
  rewrite !couple_lt_spec. intros [A|[A A']].
  - destruct (strlt_weak _ _ (casefold (fst z)) A); auto.
  - rewrite <- A. destruct (strlt_total (casefold (fst x)) (casefold (fst z))) as [B|[B|B]]; auto.
    rewrite B. destruct (strlt_weak _ _ (casefold (snd z)) A'); auto.
Qed.
Lemma couple_lt_incomparable k k' : couple_lt k k' = false -> couple_lt k' k = false ->
  casefold (fst k) = casefold (fst k') /\ casefold (snd k) = casefold (snd k').
Proof.
  intros A B.
  destruct (strlt_total (casefold (fst k)) (casefold (fst k'))) as [C|[C|C]].
  - assert (X : couple_lt k k' = true) by (apply couple_lt_spec; auto). congruence.
  - split; [exact C|]. destruct (strlt_total (casefold (snd k)) (casefold (snd k'))) as [D|[D|D]]; [|exact D|].
    + assert (X : couple_lt k k' = true) by (apply couple_lt_spec; auto). congruence.
    + assert (X : couple_lt k' k = true) by (apply couple_lt_spec; auto). congruence.
  - assert (X : couple_lt k' k = true) by (apply couple_lt_spec; auto). congruence.
Qed.
(** no two different keys agree up to case *)
Definition case_distinct (d : dict (string * string) Qc) : Prop :=
  forall k k', In k (dkeys d) -> In k' (dkeys d) ->
    casefold (fst k) = casefold (fst k') -> casefold (snd k) = casefold (snd k') -> k = k'.
Lemma sort_items_unique l m : Permutation l m -> dwf l -> case_distinct l -> py_sorted item_lt l = py_sorted item_lt m.
Proof.
  intros P W CD. apply py_sorted_unique; auto.
  - intros x y z. apply couple_lt_trans.
  - intros x. apply couple_lt_irrefl.
  - intros x y z. apply couple_lt_weak.
  - intros [k v] [k' v'] J J' A B. destruct (couple_lt_incomparable _ _ A B) as [E1 E2].
    assert (k = k') by (apply CD; auto; [apply (in_map fst) in J; exact J|apply (in_map fst) in J'; exact J']).
    subst k'. f_equal. apply In_dget in J; auto. apply In_dget in J'; auto. congruence.
Qed.
Lemma dict_perm {K V} `{EqDec K} (d d' : dict K V) : dwf d -> dwf d' -> (forall k, dget d k = dget d' k) -> Permutation d d'.
Proof.
  intros W W' E. apply NoDup_Permutation.
  - unfold dwf, dkeys in W. eapply NoDup_map_inv, W.
  - unfold dwf, dkeys in W'. eapply NoDup_map_inv, W'.
  - intros [k v]. split; intros J.
    + apply In_dget in J; auto. rewrite E in J. apply dget_In, J.
    + apply In_dget in J; auto. rewrite <- E in J. apply dget_In, J.
Qed.
