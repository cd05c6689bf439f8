(** One level of the sweep: the surfaces emitted by finish_z and next_z. *)
From Coq Require Import String Permutation.
From Verif Require Import PyBase PyLib SW_Model SW_Spec SW_Proofs.

Section Sweep.
Context {face : Type} `{EqDec face}.
Context {piece : Type} `{EqDec piece}.
Variables (left_of right_of : piece -> face) (pieces : list piece).
Notation region := (@region face).
Notation surface := (@surface face piece).
#[local] Arguments r_or : simpl never.
#[local] Arguments r_and : simpl never.
#[local] Arguments r_sub : simpl never.
#[local] Arguments has : simpl never.
#[local] Arguments is_empty : simpl never.

(** ** horizontal surfaces at a point *)
Lemma hl_emit z z' p (r : region) (s : surface) lab :
  hlabel_at z' p s = (if Z.eqb z' z && has r p then [lab] else []) ->
  horizontals z' p (emit_if r s) = if Z.eqb z' z && has r p then [lab] else [].
Proof.
  intros E. unfold emit_if, horizontals. destruct (is_empty r) eqn:R.
  - rewrite (is_empty_nil _ R). cbn. rewrite andb_false_r. reflexivity.
  - cbn. rewrite app_nil_r. exact E.
Qed.
Lemma horizontals_app z p (l m : list surface) : horizontals z p (l ++ m) = horizontals z p l ++ horizontals z p m.
Proof. apply flat_map_app. Qed.
Lemma hl_hdiel_in z z' p mni (dout : dict mkey region) mnos : forall lin,
  horizontals z' p (hdiel_in z mni dout mnos lin : list surface) =
  if Z.eqb z' z && has lin p then [LDiel (find (fun m => has (dgr dout (Mat m)) p) mnos) (Some mni)] else [].
Proof.
  induction mnos as [|mno t IH]; intros lin; cbn [hdiel_in find].
  - apply hl_emit. reflexivity.
  - rewrite horizontals_app, IH. rewrite (hl_emit z z' p _ _ (LDiel (Some mno) (Some mni))) by reflexivity.
    rewrite has_and, has_sub. destruct (Z.eqb z' z); cbn; [|reflexivity].
    destruct (has (dgr dout (Mat mno)) p), (has lin p); reflexivity.
Qed.
Lemma hl_hcond_in z z' p nn (dout : dict mkey region) mnos : forall lin,
  horizontals z' p (hcond_in z nn dout mnos lin : list surface) =
  if Z.eqb z' z && has lin p then [LBottom nn (find (fun m => has (dgr dout (Mat m)) p) mnos)] else [].
Proof.
  induction mnos as [|mno t IH]; intros lin; cbn [hcond_in find].
  - apply hl_emit. reflexivity.
  - rewrite horizontals_app, IH. rewrite (hl_emit z z' p _ _ (LBottom nn (Some mno))) by reflexivity.
    rewrite has_and, has_sub. destruct (Z.eqb z' z); cbn; [|reflexivity].
    destruct (has (dgr dout (Mat mno)) p), (has lin p); reflexivity.
Qed.
Lemma hl_hcond_out z z' p nn (din : dict mkey region) mnis : forall lout,
  horizontals z' p (hcond_out z nn din mnis lout : list surface) =
  if Z.eqb z' z && has lout p then [LTop nn (find (fun m => has (dgr din (Mat m)) p) mnis)] else [].
Proof.
  induction mnis as [|mno t IH]; intros lout; cbn [hcond_out find].
  - apply hl_emit. reflexivity.
  - rewrite horizontals_app, IH. rewrite (hl_emit z z' p _ _ (LTop nn (Some mno))) by reflexivity.
    rewrite has_and, has_sub. destruct (Z.eqb z' z); cbn; [|reflexivity].
    destruct (has (dgr din (Mat mno)) p), (has lout p); reflexivity.
Qed.
Lemma has_fold_sub (din : dict mkey region) p mats : forall l,
  has (fold_left (fun l mni => r_sub l (dgr din (Mat mni))) mats l) p = has l p && negb (existsb (fun m => has (dgr din (Mat m)) p) mats).
Proof.
  induction mats as [|m t IH]; intros l; cbn; [rewrite andb_true_r; reflexivity|].
  rewrite IH, has_sub, negb_orb, andb_assoc. reflexivity.
Qed.
Lemma hl_hdiel_out mats z z' p mno (din : dict mkey region) cin lout :
  horizontals z' p (hdiel_out mats z mno din cin lout : list surface) =
  if Z.eqb z' z && (has lout p && negb (has cin p) && negb (existsb (fun m => has (dgr din (Mat m)) p) mats))
  then [LDiel (Some mno) None] else [].
Proof.
  unfold hdiel_out. rewrite (hl_emit z z' p _ _ (LDiel (Some mno) None)) by reflexivity.
  rewrite has_fold_sub, has_sub. reflexivity.
Qed.
Lemma horizontals_flat_map {A} z p (f : A -> list surface) l : horizontals z p (flat_map f l) = flat_map (fun x => horizontals z p (f x)) l.
Proof. apply flat_map_flat_map. Qed.

(** the labels as a function of the legalised events at the point *)
Definition labels (nets mats : list string) (i o : mkey -> bool) (cin cout : bool) : list hlabel :=
  flat_map (fun m => if i (Mat m) && negb cout then [LDiel (find (fun m' => o (Mat m')) mats) (Some m)] else []) mats ++
  flat_map (fun m => if o (Mat m) && negb cin && negb (existsb (fun m' => i (Mat m')) mats) then [LDiel (Some m) None] else []) mats ++
  flat_map (fun n => if i (Net n) then [LBottom n (find (fun m' => o (Mat m')) mats)] else []) nets ++
  flat_map (fun n => if o (Net n) && negb cin then [LTop n (find (fun m' => i (Mat m')) mats)] else []) nets.

(** who is in and who is out once the owners are known *)
Lemma flat_map_owner_mat {B} (O : option mkey) (mats : list string) (g : string -> list B) :
  NoDup mats -> (forall m, O = Some (Mat m) -> In m mats) ->
  flat_map (fun m => if eqb O (Some (Mat m)) then g m else []) mats = match O with Some (Mat m) => g m | _ => [] end.
Proof.
  intros N I. destruct O as [[n|m]|].
  - apply flat_map_none. reflexivity.
  - rewrite (flat_map_one _ mats m N (I m eq_refl)).
    + rewrite eqb_refl. reflexivity.
    + intros x J D. destruct (eqb (Some (Mat m)) (Some (Mat x))) eqn:E; [|reflexivity]. apply eqb_eq in E. congruence.
  - apply flat_map_none. reflexivity.
Qed.
Lemma flat_map_owner_net {B} (O : option mkey) (nets : list string) (g : string -> list B) :
  NoDup nets -> (forall m, O = Some (Net m) -> In m nets) ->
  flat_map (fun m => if eqb O (Some (Net m)) then g m else []) nets = match O with Some (Net m) => g m | _ => [] end.
Proof.
  intros N I. destruct O as [[m|n]|].
  - rewrite (flat_map_one _ nets m N (I m eq_refl)).
    + rewrite eqb_refl. reflexivity.
    + intros x J D. destruct (eqb (Some (Net m)) (Some (Net x))) eqn:E; [|reflexivity]. apply eqb_eq in E. congruence.
  - apply flat_map_none. reflexivity.
  - apply flat_map_none. reflexivity.
Qed.
Lemma find_owner_mat (O : option mkey) (mats : list string) :
  (forall m, O = Some (Mat m) -> In m mats) -> find (fun m => eqb O (Some (Mat m))) mats = material_of O.
Proof.
  intros I. destruct (find _ mats) as [m|] eqn:E.
  - apply find_In in E. destruct E as [_ E]. apply eqb_eq in E. subst O. reflexivity.
  - destruct O as [[n|m]|]; try reflexivity. pose proof (find_none _ _ E _ (I m eq_refl)) as F. cbn in F. rewrite eqb_refl in F. discriminate.
Qed.
Lemma exists_owner_mat (O : option mkey) (mats : list string) :
  (forall m, O = Some (Mat m) -> In m mats) ->
  existsb (fun m => eqb O (Some (Mat m))) mats = match O with Some (Mat _) => true | _ => false end.
Proof. intros I. rewrite <- find_none_iff, find_owner_mat by exact I. destruct O as [[n|m]|]; reflexivity. Qed.

Lemma find_mat_narrow (f : mkey -> bool) (h : string -> bool) m (ms : list string) :
  find f (map Mat ms) = Some (Mat m) -> (forall x, h x = true -> f (Mat x) = true) -> h m = true -> find h ms = Some m.
Proof.
  induction ms as [|x t IH]; cbn; [discriminate|]. intros E H1 H2. destruct (f (Mat x)) eqn:F.
  - injection E as ->. rewrite H2. reflexivity.
  - destruct (h x) eqn:G; [rewrite (H1 _ G) in F; discriminate|]. auto.
Qed.

Definition is_net (o : option mkey) : bool := match o with Some (Net _) => true | _ => false end.

Section Point.
Variables (nets mats : list string) (a b : mkey -> bool).
Let names := map Net nets ++ map Mat mats.
Hypothesis Nnets : NoDup nets.
Hypothesis Nmats : NoDup mats.
Let Oa := find a names.
Let Ob := find b names.

Lemma Owner_In f m : find f names = Some (Mat m) -> In m mats.
Proof. intros E. apply find_In in E. destruct E as [E _]. apply in_app_or in E. destruct E as [E|E]; apply in_map_iff in E; destruct E as (x & E & J); congruence. Qed.
Lemma Owner_In_net f m : find f names = Some (Net m) -> In m nets.
Proof. intros E. apply find_In in E. destruct E as [E _]. apply in_app_or in E. destruct E as [E|E]; apply in_map_iff in E; destruct E as (x & E & J); congruence. Qed.

Lemma find_nets f : find f (map Net nets) = if is_net (find f names) then find f names else None.
Proof.
  unfold names. rewrite find_app. destruct (find f (map Net nets)) as [k|] eqn:E.
  - apply find_In in E. destruct E as [E _]. apply in_map_iff in E. destruct E as (x & <- & _). reflexivity.
  - destruct (find f (map Mat mats)) as [k|] eqn:E2; [|reflexivity].
    apply find_In in E2. destruct E2 as [E2 _]. apply in_map_iff in E2. destruct E2 as (x & <- & _). reflexivity.
Qed.
Lemma cond_events f g : some_in f g (map Net nets) = is_net (find f names) && negb (eqb (find f names) (find g names)).
Proof.
  unfold some_in. rewrite !find_nets. destruct (find f names) as [[n|m]|] eqn:E1; cbn; try reflexivity.
  destruct (find g names) as [[n'|m']|] eqn:E2; cbn; try reflexivity.
Qed.

Lemma labels_exact :
  (Oa = Ob \/ forall k, In k names -> a k = true -> b k = true -> Oa = Some k \/ Ob = Some k) ->
  labels nets mats (inb a b names) (inb b a names) (some_in a b (map Net nets)) (some_in b a (map Net nets)) = expected_h Ob Oa.
Proof.
  intros X. unfold expected_h. rewrite !cond_events. fold Oa Ob.
  destruct (eqb Ob Oa) eqn:E.
  - assert (I : forall k, inb a b names k = false).
    { intros k. unfold inb. fold Oa Ob. apply eqb_eq in E. rewrite E, eqb_refl. destruct (a k), (b k), (eqb Oa (Some k)); reflexivity. }
    assert (J : forall k, inb b a names k = false).
    { intros k. unfold inb. fold Oa Ob. apply eqb_eq in E. rewrite E, eqb_refl. destruct (a k), (b k), (eqb Oa (Some k)); reflexivity. }
    unfold labels. rewrite !flat_map_none; [reflexivity|intros k _; rewrite ?I, ?J; reflexivity..].
  - assert (E' : Oa <> Ob) by (apply eqb_neq in E; congruence).
    destruct X as [X|X]; [contradiction|].
    assert (Ha : forall k, Oa = Some k -> a k = true) by (intros k F; apply find_In in F; tauto).
    assert (Hb : forall k, Ob = Some k -> b k = true) by (intros k F; apply find_In in F; tauto).
    assert (I : forall k, In k names -> inb a b names k = eqb Oa (Some k)).
    { intros k J. unfold inb. fold Oa Ob. destruct (eqb Oa (Some k)) eqn:E1.
      - apply eqb_eq in E1. rewrite (Ha _ E1). destruct (eqb Ob (Some k)) eqn:E2; [apply eqb_eq in E2; congruence|reflexivity].
      - cbn. destruct (a k) eqn:A, (b k) eqn:B; try reflexivity. destruct (X k J A B) as [F|F]; rewrite F in *.
        + rewrite eqb_refl in E1; discriminate.
        + rewrite eqb_refl; reflexivity. }
    assert (I' : forall k, In k names -> inb b a names k = eqb Ob (Some k)).
    { intros k J. unfold inb. fold Oa Ob. destruct (eqb Ob (Some k)) eqn:E1.
      - apply eqb_eq in E1. rewrite (Hb _ E1). destruct (eqb Oa (Some k)) eqn:E2; [apply eqb_eq in E2; congruence|reflexivity].
      - cbn. destruct (a k) eqn:A, (b k) eqn:B; try reflexivity. destruct (X k J A B) as [F|F]; rewrite F in *.
        + rewrite eqb_refl; reflexivity.
        + rewrite eqb_refl in E1; discriminate. }
    assert (InM : forall m, In m mats -> In (Mat m) names) by (intros m J; apply in_or_app; right; apply in_map, J).
    assert (InN : forall m, In m nets -> In (Net m) names) by (intros m J; apply in_or_app; left; apply in_map, J).
    unfold labels. rewrite (eqb_sym Oa Ob), E. cbn [negb]. rewrite !andb_true_r.
    rewrite (find_ext (fun m' => inb b a names (Mat m')) (fun m => eqb Ob (Some (Mat m)))) by auto.
    rewrite (find_ext (fun m' => inb a b names (Mat m')) (fun m => eqb Oa (Some (Mat m)))) by auto.
    rewrite !find_owner_mat by (apply Owner_In).
    rewrite <- (find_none_iff (fun m' => inb a b names (Mat m'))).
    rewrite (find_ext (fun m' => inb a b names (Mat m')) (fun m => eqb Oa (Some (Mat m)))) by auto.
    rewrite !find_owner_mat by (apply Owner_In).
    rewrite (flat_map_ext_in (fun m => if inb a b names (Mat m) && negb (is_net Ob) then _ else _)
               (fun m => if eqb Oa (Some (Mat m)) then (if is_net Ob then [] else [LDiel (material_of Ob) (Some m)]) else [])).
    2:{ intros m J. rewrite I by auto. destruct (eqb Oa (Some (Mat m))), (is_net Ob); reflexivity. }
    rewrite (flat_map_ext_in (fun m => if inb b a names (Mat m) && negb (is_net Oa) && _ then _ else _)
               (fun m => if eqb Ob (Some (Mat m)) then (match Oa with None => [LDiel (Some m) None] | _ => [] end) else [])).
    2:{ intros m J. rewrite I' by auto. destruct (eqb Ob (Some (Mat m))), Oa as [[|]|]; reflexivity. }
    rewrite (flat_map_ext_in (fun n => if inb a b names (Net n) then _ else _)
               (fun n => if eqb Oa (Some (Net n)) then [LBottom n (material_of Ob)] else [])).
    2:{ intros m J. rewrite I by auto. reflexivity. }
    rewrite (flat_map_ext_in (fun n => if inb b a names (Net n) && negb (is_net Oa) then _ else _)
               (fun n => if eqb Ob (Some (Net n)) then (if is_net Oa then [] else [LTop n (material_of Oa)]) else [])).
    2:{ intros m J. rewrite I' by auto. destruct (eqb Ob (Some (Net m))), (is_net Oa); reflexivity. }
    rewrite !flat_map_owner_mat, !flat_map_owner_net; auto; try apply Owner_In; try apply Owner_In_net.
    destruct Oa as [[n|m]|], Ob as [[n'|m']|]; cbn; try reflexivity. congruence.
Qed.

(** the true surface is never missing, except possibly where two nets touch *)
Lemma labels_complete lab :
  ~ (is_net Oa = true /\ is_net Ob = true) -> In lab (expected_h Ob Oa) ->
  In lab (labels nets mats (inb a b names) (inb b a names) (some_in a b (map Net nets)) (some_in b a (map Net nets))).
Proof.
  intros NN. unfold expected_h. rewrite !cond_events. fold Oa Ob.
  destruct (eqb Ob Oa) eqn:E; [contradiction|].
  assert (E' : Oa <> Ob) by (apply eqb_neq in E; congruence).
  assert (Ha : forall k, Oa = Some k -> a k = true) by (intros k F; apply find_In in F; tauto).
  assert (Hb : forall k, Ob = Some k -> b k = true) by (intros k F; apply find_In in F; tauto).
  assert (I : forall k, Oa = Some k -> inb a b names k = true).
  { intros k F. unfold inb. fold Oa Ob. rewrite (Ha _ F), F, eqb_refl. cbn. rewrite <- F, E. reflexivity. }
  assert (I' : forall k, Ob = Some k -> inb b a names k = true).
  { intros k F. unfold inb. fold Oa Ob. rewrite (Hb _ F), F, eqb_refl. cbn. rewrite <- F, eqb_sym, E. reflexivity. }
  assert (Fm : forall (f g : mkey -> bool) (O : option mkey), O = find f names -> is_net O = false ->
     (forall m, inb f g names (Mat m) = true -> f (Mat m) = true) ->
     (forall m, O = Some (Mat m) -> inb f g names (Mat m) = true) -> find (fun m => inb f g names (Mat m)) mats = material_of O).
  { intros f g O EO NO H1 H2. unfold names in EO. rewrite find_app in EO.
    destruct (find f (map Net nets)) as [k|] eqn:F1.
    { exfalso. apply find_In in F1. destruct F1 as [F1 _]. apply in_map_iff in F1. destruct F1 as (x & <- & _). subst O. discriminate. }
    destruct O as [[n|m]|]; cbn; [discriminate| |].
    - symmetry in EO. apply (find_mat_narrow f); auto.
    - symmetry in EO. destruct (find (fun m => inb f g names (Mat m)) mats) as [m|] eqn:F2; [|reflexivity].
      apply find_In in F2. destruct F2 as [J F2]. apply H1 in F2.
      pose proof (find_none _ _ EO (Mat m) (in_map _ _ _ J)). congruence. }
  assert (Q1 : forall m, inb a b names (Mat m) = true -> a (Mat m) = true) by (intros m F; unfold inb in F; apply andb_true_iff in F; tauto).
  assert (Q2 : forall m, inb b a names (Mat m) = true -> b (Mat m) = true) by (intros m F; unfold inb in F; apply andb_true_iff in F; tauto).
  unfold labels. rewrite (eqb_sym Oa Ob), E. cbn [negb]. rewrite !andb_true_r.
  destruct Oa as [[n|m]|] eqn:EOa, Ob as [[n'|m']|] eqn:EOb; cbn [is_net negb]; intros J; cbn in J; destruct J as [<-|[]];
    rewrite !in_app_iff, !in_flat_map.
  - exfalso. apply NN. split; reflexivity.
  - right; right; left. exists n. split; [apply (Owner_In_net _ _ EOa)|]. rewrite (I _ eq_refl).
    rewrite (Fm b a (Some (Mat m'))); auto; try (left; reflexivity); try (intros m F; apply I'; congruence).
  - right; right; left. exists n. split; [apply (Owner_In_net _ _ EOa)|]. rewrite (I _ eq_refl).
    rewrite (Fm b a None); auto; try (left; reflexivity); try (congruence).
  - right; right; right. exists n'. split; [apply (Owner_In_net _ _ EOb)|]. rewrite (I' _ eq_refl). cbn.
    rewrite (Fm a b (Some (Mat m))); auto; try (left; reflexivity); try (intros m0 F; apply I; congruence).
  - left. exists m. split; [apply (Owner_In _ _ EOa)|]. rewrite (I _ eq_refl). cbn.
    rewrite (Fm b a (Some (Mat m'))); auto; try (left; reflexivity); try (intros m0 F; apply I'; congruence).
  - left. exists m. split; [apply (Owner_In _ _ EOa)|]. rewrite (I _ eq_refl). cbn.
    rewrite (Fm b a None); auto; try (left; reflexivity); try (congruence).
  - right; right; right. exists n'. split; [apply (Owner_In_net _ _ EOb)|]. rewrite (I' _ eq_refl). cbn.
    rewrite (Fm a b None); auto; try (left; reflexivity); try (congruence).
  - right; left. exists m'. split; [apply (Owner_In _ _ EOb)|]. rewrite (I' _ eq_refl). cbn.
    rewrite <- (find_none_iff (fun m => inb a b names (Mat m))). rewrite (Fm a b None); auto; try (left; reflexivity); try (congruence).
  - contradiction E'. reflexivity.
Qed.
End Point.

(** ** vertical surfaces at a boundary piece *)
Definition dirs (l : list (piece * bool)) (e : piece) : list bool :=
  flat_map (fun x => if eqb e (fst x) then [snd x] else []) l.
Lemma dirs_filter (f : piece -> bool) (l : list (piece * bool)) e :
  dirs (filter (fun x => f (fst x)) l) e = if f e then dirs l e else [].
Proof.
  induction l as [|[x d] t IH]; cbn; [destruct (f e); reflexivity|].
  destruct (f x) eqn:F; cbn; fold (dirs (filter (fun x => f (fst x)) t) e); fold (dirs t e); rewrite IH.
  - destruct (eqb e x) eqn:E; [apply eqb_eq in E; subst; rewrite F; reflexivity|]. destruct (f e); reflexivity.
  - destruct (eqb e x) eqn:E; [apply eqb_eq in E; subst; rewrite F; reflexivity|]. destruct (f e); reflexivity.
Qed.
Lemma has_piece_dirs (l : list (piece * bool)) e : has_piece l e = match dirs l e with [] => false | _ => true end.
Proof.
  induction l as [|[x d] t IH]; cbn; [reflexivity|]. fold (has_piece t e) (dirs t e). rewrite IH.
  destruct (eqb e x); reflexivity.
Qed.
Lemma dirs_and (l m : list (piece * bool)) e : dirs (e_and l m) e = if has_piece m e then dirs l e else [].
Proof. apply (dirs_filter (has_piece m)). Qed.
Lemma dirs_sub (l m : list (piece * bool)) e : dirs (e_sub l m) e = if has_piece m e then [] else dirs l e.
Proof. unfold e_sub. rewrite (dirs_filter (fun x => negb (has_piece m x))). destruct (has_piece m e); reflexivity. Qed.
Hypothesis Npieces : NoDup pieces.
Notation edges := (edges left_of right_of pieces).
Lemma dirs_edges (r : region) e : In e pieces ->
  dirs (edges r) e = match has r (left_of e), has r (right_of e) with true, false => [false] | false, true => [true] | _, _ => [] end.
Proof.
  intros I. unfold dirs, SW_Model.edges. rewrite flat_map_flat_map. rewrite (flat_map_one _ pieces e Npieces I).
  - destruct (has r (left_of e)), (has r (right_of e)); cbn; rewrite ?eqb_refl; reflexivity.
  - intros x J D. assert (F : eqb e x = false) by (apply eqb_false; congruence).
    destruct (has r (left_of x)), (has r (right_of x)); cbn; rewrite ?F; reflexivity.
Qed.

Lemma verticals_app z zz e (l m : list surface) : verticals z zz e (l ++ m) = verticals z zz e l ++ verticals z zz e m.
Proof. apply flat_map_app. Qed.
Lemma vl_diel z zz e o i (l : list (piece * bool)) (z' zz' : Z) :
  verticals z' zz' e (map (VDiel z zz o i) l : list surface) =
  if Z.eqb z' z && Z.eqb zz' zz then map (LVDiel o i) (dirs l e) else [].
Proof.
  unfold verticals, dirs. induction l as [|[x d] t IH]; cbn; [destruct (_ && _); reflexivity|]. rewrite IH.
  destruct (Z.eqb z' z && Z.eqb zz' zz); cbn; [|reflexivity]. destruct (eqb e x); reflexivity.
Qed.
Lemma vl_diel_swapped z zz e o i (l : list (piece * bool)) (z' zz' : Z) :
  verticals z' zz' e (map (fun x => VDiel z zz o i (swapped x)) l : list surface) =
  if Z.eqb z' z && Z.eqb zz' zz then map (fun d => LVDiel o i (negb d)) (dirs l e) else [].
Proof.
  unfold verticals, dirs. induction l as [|[x d] t IH]; cbn; [destruct (_ && _); reflexivity|]. rewrite IH.
  destruct (Z.eqb z' z && Z.eqb zz' zz); cbn; [|reflexivity]. destruct (eqb e x); reflexivity.
Qed.
Lemma vl_cond z zz e n o (l : list (piece * bool)) (z' zz' : Z) :
  verticals z' zz' e (map (VCond z zz n o) l : list surface) =
  if Z.eqb z' z && Z.eqb zz' zz then map (LVCond n o) (dirs l e) else [].
Proof.
  unfold verticals, dirs. induction l as [|[x d] t IH]; cbn; [destruct (_ && _); reflexivity|]. rewrite IH.
  destruct (Z.eqb z' z && Z.eqb zz' zz); cbn; [|reflexivity]. destruct (eqb e x); reflexivity.
Qed.
Lemma vl_cond_swapped z zz e n o (l : list (piece * bool)) (z' zz' : Z) :
  verticals z' zz' e (map (fun x => VCond z zz n o (swapped x)) l : list surface) =
  if Z.eqb z' z && Z.eqb zz' zz then map (fun d => LVCond n o (negb d)) (dirs l e) else [].
Proof.
  unfold verticals, dirs. induction l as [|[x d] t IH]; cbn; [destruct (_ && _); reflexivity|]. rewrite IH.
  destruct (Z.eqb z' z && Z.eqb zz' zz); cbn; [|reflexivity]. destruct (eqb e x); reflexivity.
Qed.

(** position in a list *)
Fixpoint index_of (m : string) (l : list string) : option nat :=
  match l with [] => None | x :: t => if eqb x m then Some 0%nat else option_map S (index_of m t) end.
Lemma index_of_In m l : In m l -> exists i, index_of m l = Some i.
Proof.
  induction l as [|x t IH]; cbn; [contradiction|]. intros I. destruct (eqb x m) eqn:E; [eauto|].
  destruct I as [->|I]; [rewrite eqb_refl in E; discriminate|]. destruct (IH I) as [i ->]. cbn. eauto.
Qed.
Lemma index_of_nth m l i : index_of m l = Some i -> nth_error l i = Some m.
Proof.
  revert i. induction l as [|x t IH]; cbn; [discriminate|]. intros i. destruct (eqb x m) eqn:E.
  - intros [= <-]. apply eqb_eq in E. subst. reflexivity.
  - destruct (index_of m t) as [j|]; cbn; [|discriminate]. intros [= <-]. cbn. apply IH. reflexivity.
Qed.
Lemma first_of_two m m' l i j : m <> m' -> index_of m l = Some i -> index_of m' l = Some j ->
  find (fun x => eqb x m || eqb x m') l = Some (if Nat.ltb i j then m else m').
Proof.
  intros D. revert i j. induction l as [|x t IH]; cbn; [discriminate|]. intros i j.
  destruct (eqb x m) eqn:E1, (eqb x m') eqn:E2; cbn.
  - apply eqb_eq in E1. apply eqb_eq in E2. congruence.
  - intros [= <-]. destruct (index_of m' t) as [j'|]; cbn; [|discriminate]. intros [= <-]. apply eqb_eq in E1. subst. reflexivity.
  - intros Hi [= <-]. destruct (index_of m t) as [j'|]; cbn in Hi; [|discriminate]. injection Hi as <-. apply eqb_eq in E2. subst. reflexivity.
  - destruct (index_of m t) as [i'|]; cbn; [|discriminate]. intros [= <-]. destruct (index_of m' t) as [j'|]; cbn; [|discriminate]. intros [= <-].
    rewrite (IH i' j') by reflexivity. reflexivity.
Qed.

Section Walls.
Variables (st : dict mkey region) (nets mats : list string) (own : face -> option mkey).
Hypothesis Nnets : NoDup nets.
Hypothesis Nmats : NoDup mats.
Hypothesis Hnet : forall n, In n nets -> forall p, has (dgr st (Net n)) p = eqb (own p) (Some (Net n)).
Hypothesis Hmat : forall m, In m mats -> forall p, has (dgr st (Mat m)) p = eqb (own p) (Some (Mat m)).
Hypothesis Ownnet : forall p n, own p = Some (Net n) -> In n nets.
Hypothesis Ownmat : forall p m, own p = Some (Mat m) -> In m mats.
Variables (z zz : Z) (e : piece).
Hypothesis Ie : In e pieces.
Let L := own (left_of e).
Let R := own (right_of e).
Definition inside_of (d : bool) := if d then R else L.
Definition outside_of (d : bool) := if d then L else R.

Lemma dirs_state k r : (forall p, has r p = eqb (own p) (Some k)) ->
  dirs (edges r) e = if eqb L R then [] else (if eqb L (Some k) then [false] else []) ++ (if eqb R (Some k) then [true] else []).
Proof.
  intros Hr. rewrite dirs_edges, !Hr by exact Ie. fold L R.
  destruct (eqb L (Some k)) eqn:E1, (eqb R (Some k)) eqn:E2; cbn; destruct (eqb L R) eqn:E; try reflexivity.
  - apply eqb_eq in E1, E2. rewrite E1, E2, eqb_refl in E. discriminate.
  - apply eqb_eq in E. congruence.
  - apply eqb_eq in E. congruence.
Qed.

Lemma vdiel_nil i mni mnos : forall o lin, dirs lin e = [] ->
  verticals z zz e (vdiel_loop left_of right_of pieces z zz st i mni o mnos lin : list surface) = [].
Proof.
  induction mnos as [|mno t IH]; intros o lin D; cbn [vdiel_loop].
  - rewrite vl_diel, D. destruct (_ && _); reflexivity.
  - destruct (Nat.eqb i o); [apply IH, D|]. rewrite verticals_app, IH by (rewrite dirs_sub, D; destruct (has_piece _ e); reflexivity).
    destruct (Nat.ltb i o); [|reflexivity]. rewrite vl_diel_swapped, dirs_and, has_piece_dirs, D. destruct (_ && _); reflexivity.
Qed.
Lemma vcond_nil n mnos : forall lin, dirs lin e = [] ->
  verticals z zz e (vcond_loop left_of right_of pieces z zz st n mnos lin : list surface) = [].
Proof.
  induction mnos as [|mno t IH]; intros lin D; cbn [vcond_loop].
  - rewrite vl_cond, D. destruct (_ && _); reflexivity.
  - rewrite verticals_app, IH by (rewrite dirs_sub, D; destruct (has_piece _ e); reflexivity).
    rewrite vl_cond_swapped, dirs_and, has_piece_dirs, D. destruct (_ && _); reflexivity.
Qed.

Lemma vdiel_one i mni d mnos : L <> R -> inside_of d = Some (Mat mni) ->
  forall o lin, (forall m, In m mnos -> In m mats) -> NoDup mnos -> (forall j, nth_error mnos j = Some mni <-> (o + j = i)%nat /\ (j < List.length mnos)%nat) ->
  dirs lin e = [d] ->
  verticals z zz e (vdiel_loop left_of right_of pieces z zz st i mni o mnos lin : list surface) =
  match outside_of d with
  | Some (Mat m') => match index_of m' mnos with
                     | Some j => if Nat.ltb i (o + j) then [LVDiel (Some m') (Some mni) d] else []
                     | None => [LVDiel None (Some mni) d]
                     end
  | _ => [LVDiel None (Some mni) d]
  end.
Proof.
  intros NLR Ein. induction mnos as [|mno t IH]; intros o lin Sub Nd Hi D; cbn [vdiel_loop index_of].
  - rewrite vl_diel, D, !Z.eqb_refl. cbn. destruct (outside_of d) as [[n|m']|]; reflexivity.
  - inversion Nd as [|? ? N1 N2]; subst.
    assert (Hi' : forall j, nth_error t j = Some mni <-> (S o + j = i)%nat /\ (j < List.length t)%nat).
    { intros j. specialize (Hi (S j)). cbn in Hi. rewrite Hi. lia. }
    destruct (Nat.eqb i o) eqn:Eio.
    + apply Nat.eqb_eq in Eio. subst i.
      assert (mno = mni). { specialize (Hi 0%nat). cbn in Hi. assert (Some mno = Some mni) by (apply Hi; lia). congruence. } subst mno.
      rewrite IH; auto; [|intros m J; apply Sub; right; exact J].
      destruct (outside_of d) as [[n|m']|] eqn:Eo; try reflexivity.
      destruct (eqb mni m') eqn:Em.
      * apply eqb_eq in Em. subst m'. exfalso. destruct d; cbn in Ein, Eo; congruence.
      * destruct (index_of m' t) as [j|]; cbn; [|reflexivity].
        replace (o + S j)%nat with (S o + j)%nat by lia. reflexivity.
    + apply Nat.eqb_neq in Eio.
      assert (Dm : mno <> mni). { intros ->. specialize (Hi 0%nat). cbn in Hi. assert (G : (o + 0 = i)%nat /\ (0 < S (List.length t))%nat) by (apply Hi; reflexivity). lia. }
      rewrite verticals_app.
      assert (De : dirs (edges (dgr st (Mat mno))) e = if eqb (outside_of d) (Some (Mat mno)) then [negb d] else []).
      { rewrite (dirs_state (Mat mno)) by (apply Hmat, Sub; left; reflexivity).
        replace (eqb L R) with false by (symmetry; apply eqb_false; exact NLR).
        destruct d; cbn [inside_of outside_of] in *; rewrite Ein;
          replace (eqb (Some (Mat mni)) (Some (Mat mno))) with false by (symmetry; apply eqb_false; congruence);
          rewrite ?app_nil_r; reflexivity. }
      destruct (eqb (outside_of d) (Some (Mat mno))) eqn:Eo.
      * apply eqb_eq in Eo. rewrite Eo, eqb_refl.
        rewrite vdiel_nil by (rewrite dirs_sub, has_piece_dirs, De; reflexivity). rewrite app_nil_r, Nat.add_0_r.
        destruct (Nat.ltb i o); [|reflexivity].
        rewrite vl_diel_swapped, dirs_and, has_piece_dirs, D, De, !Z.eqb_refl. cbn. rewrite negb_involutive. reflexivity.
      * replace (verticals z zz e (if Nat.ltb i o then map (fun x => VDiel z zz (Some mno) (Some mni) (swapped x)) (e_and (edges (dgr st (Mat mno))) lin) else [])) with (@nil vlabel).
        2:{ destruct (Nat.ltb i o); [|reflexivity]. rewrite vl_diel_swapped, dirs_and, De. destruct (has_piece lin e); destruct (_ && _); reflexivity. }
        cbn [app]. rewrite IH; auto; [|intros m J; apply Sub; right; exact J|rewrite dirs_sub, has_piece_dirs, De; exact D].
        destruct (outside_of d) as [[n|m']|] eqn:Eo2; try reflexivity.
        replace (eqb mno m') with false. 2:{ symmetry. apply eqb_false. intros ->. rewrite eqb_refl in Eo. discriminate. }
        destruct (index_of m' t) as [j|]; cbn; [|reflexivity]. replace (o + S j)%nat with (S o + j)%nat by lia. reflexivity.
Qed.

Lemma vcond_one n d mnos : L <> R -> inside_of d = Some (Net n) ->
  forall lin, (forall m, In m mnos -> In m mats) -> dirs lin e = [d] ->
  verticals z zz e (vcond_loop left_of right_of pieces z zz st n mnos lin : list surface) =
  [LVCond n (find (fun m => eqb (outside_of d) (Some (Mat m))) mnos) d].
Proof.
  intros NLR Ein. induction mnos as [|mno t IH]; intros lin Sub D; cbn [vcond_loop find].
  - rewrite vl_cond, D, !Z.eqb_refl. reflexivity.
  - rewrite verticals_app.
    assert (De : dirs (edges (dgr st (Mat mno))) e = if eqb (outside_of d) (Some (Mat mno)) then [negb d] else []).
    { rewrite (dirs_state (Mat mno)) by (apply Hmat, Sub; left; reflexivity).
      replace (eqb L R) with false by (symmetry; apply eqb_false; exact NLR).
      destruct d; cbn [inside_of outside_of] in *; rewrite Ein; rewrite ?app_nil_r; reflexivity. }
    destruct (eqb (outside_of d) (Some (Mat mno))) eqn:Eo.
    + rewrite vcond_nil by (rewrite dirs_sub, has_piece_dirs, De; reflexivity).
      rewrite vl_cond_swapped, dirs_and, has_piece_dirs, D, De, !Z.eqb_refl. cbn. rewrite negb_involutive. reflexivity.
    + rewrite vl_cond_swapped, dirs_and, De. rewrite IH; [|intros m J; apply Sub; right; exact J|rewrite dirs_sub, has_piece_dirs, De; exact D].
      destruct (has_piece lin e); destruct (_ && _); reflexivity.
Qed.

Lemma all_cond_dirs : dirs (edges (fold_left (fun r nn => r_or r (dgr st (Net nn))) nets [])) e =
  if is_net L then (if is_net R then [] else [false]) else (if is_net R then [true] else []).
Proof.
  assert (Hf : forall l r p, (forall n, In n l -> In n nets) -> has (fold_left (fun r nn => r_or r (dgr st (Net nn))) l r) p = has r p || existsb (fun n => eqb (own p) (Some (Net n))) l).
  { induction l as [|n t IH]; intros r p S; cbn; [rewrite orb_false_r; reflexivity|].
    rewrite IH, has_or, Hnet, orb_assoc by (try (intros x J; apply S; right; exact J); apply S; left; reflexivity). reflexivity. }
  assert (Hn : forall p, existsb (fun n => eqb (own p) (Some (Net n))) nets = is_net (own p)).
  { intros p. destruct (own p) as [[n|m]|] eqn:E; cbn.
    - apply existsb_exists. exists n. split; [apply (Ownnet p), E|apply eqb_refl].
    - destruct (existsb _ nets) eqn:X; [|reflexivity]. apply existsb_exists in X. destruct X as (x & _ & X). discriminate X.
    - destruct (existsb _ nets) eqn:X; [|reflexivity]. apply existsb_exists in X. destruct X as (x & _ & X). discriminate X. }
  rewrite dirs_edges by exact Ie. rewrite !Hf, !Hn by auto. cbn. fold L R.
  destruct (is_net L), (is_net R); reflexivity.
Qed.

Lemma enum_nth {A} (l : list A) : forall i x, In x (enumerate_from i l) -> exists j, fst x = (i + j)%nat /\ nth_error l j = Some (snd x).
Proof.
  induction l as [|y t IH]; intros i x; cbn; [contradiction|]. intros [<-|I].
  - exists 0%nat. cbn. split; [lia|reflexivity].
  - destruct (IH _ _ I) as (j & E1 & E2). exists (S j). split; [lia|exact E2].
Qed.
Lemma nth_unique {A} (l : list A) i j x : NoDup l -> nth_error l i = Some x -> nth_error l j = Some x -> i = j.
Proof.
  intros N E1 E2. apply (proj1 (NoDup_nth_error l) N); [|congruence].
  apply nth_error_Some. congruence.
Qed.
Lemma enum_map {A B} (g : A -> list B) (l : list A) : forall i, flat_map (fun x => g (snd x)) (enumerate_from i l) = flat_map g l.
Proof. induction l as [|x t IH]; intros i; cbn; [reflexivity|]. rewrite IH. reflexivity. Qed.
Lemma flat_map_pair {A B} (f g : A -> list B) l : Permutation (flat_map (fun x => f x ++ g x) l) (flat_map f l ++ flat_map g l).
Proof.
  induction l as [|x t IH]; cbn; [constructor|]. rewrite IH, <- !app_assoc. apply Permutation_app_head.
  rewrite !app_assoc. apply Permutation_app_tail. apply Permutation_app_comm.
Qed.

(** all vertical surfaces of next_z at the piece *)
Definition wall_surfaces : list surface :=
  flat_map (fun im => vdiel_loop left_of right_of pieces z zz st (fst im) (snd im) 0 mats
       (e_sub (edges (dgr st (Mat (snd im)))) (edges (fold_left (fun r nn => r_or r (dgr st (Net nn))) nets [])))) (enumerate_from 0 mats) ++
  flat_map (fun nn => vcond_loop left_of right_of pieces z zz st nn mats (edges (dgr st (Net nn)))) nets.
Lemma walls_ok : Permutation (verticals z zz e wall_surfaces) (expected_v mats L R).
Proof.
  unfold wall_surfaces, expected_v. rewrite verticals_app. unfold verticals at 1 2. rewrite !flat_map_flat_map. fold (verticals (face:=face) z zz e).
  destruct (eqb L R) eqn:ELR.
  { rewrite !flat_map_none; [constructor| |].
    - intros n J. change (verticals z zz e (vcond_loop left_of right_of pieces z zz st n mats (edges (dgr st (Net n)))) = []).
      apply vcond_nil. rewrite (dirs_state (Net n)), ELR by (apply Hnet, J). reflexivity.
    - intros im J. apply vdiel_nil. destruct (enum_nth _ _ _ J) as (j & _ & En). apply nth_error_In in En.
      rewrite dirs_sub, (dirs_state (Mat (snd im))), ELR by (apply Hmat, En). destruct (has_piece _ e); reflexivity. }
  assert (NLR : L <> R) by (apply eqb_neq, ELR).
  (* materials *)
  rewrite (flat_map_ext_in _ (fun im : nat * string =>
     (if eqb L (Some (Mat (snd im))) then expected_side mats L R false else []) ++
     (if eqb R (Some (Mat (snd im))) then expected_side mats R L true else [])) (enumerate_from 0 mats)).
  2:{ intros [i m] J. cbn [fst snd]. destruct (enum_nth _ _ _ J) as (j & Ej & En). cbn in Ej, En. subst j.
      assert (Im : In m mats) by (eapply nth_error_In; exact En).
      change (verticals z zz e (vdiel_loop left_of right_of pieces z zz st i m 0 mats
        (e_sub (edges (dgr st (Mat m))) (edges (fold_left (fun r nn => r_or r (dgr st (Net nn))) nets [])))) =
        (if eqb L (Some (Mat m)) then expected_side mats L R false else []) ++ (if eqb R (Some (Mat m)) then expected_side mats R L true else [])).
      assert (Dm : dirs (edges (dgr st (Mat m))) e = (if eqb L (Some (Mat m)) then [false] else []) ++ (if eqb R (Some (Mat m)) then [true] else [])).
      { rewrite (dirs_state (Mat m)), ELR by (apply Hmat, Im). reflexivity. }
      assert (Hidx : forall j, nth_error mats j = Some m <-> (0 + j = i)%nat /\ (j < List.length mats)%nat).
      { intros j. split.
        - intros F. split; [cbn; apply (nth_unique mats j i m); auto|]. apply nth_error_Some. congruence.
        - cbn. intros [-> _]. exact En. }
      assert (Spec : forall d m', inside_of d = Some (Mat m) -> outside_of d = Some (Mat m') ->
         (match index_of m' mats with Some j => if Nat.ltb i (0 + j) then [LVDiel (Some m') (Some m) d] else [] | None => [LVDiel None (Some m) d] end) =
         expected_side mats (Some (Mat m)) (Some (Mat m')) d).
      { intros d m' Ein Eout. assert (m <> m') by (destruct d; cbn in Ein, Eout; congruence).
        assert (Im' : In m' mats) by (destruct d; cbn in Eout; eapply Ownmat; exact Eout).
        destruct (index_of_In m mats Im) as [i' Ei']. destruct (index_of_In m' mats Im') as [j Ej].
        assert (i' = i) by (apply (nth_unique mats i' i m); auto using index_of_nth). subst i'.
        cbn [expected_side]. rewrite Ej, (first_of_two m m' mats i j) by auto. change (0 + j)%nat with j. destruct (Nat.ltb i j); [rewrite eqb_refl; reflexivity|].
        replace (eqb m' m) with false by (symmetry; apply eqb_false; congruence). reflexivity. }
      destruct (eqb L (Some (Mat m))) eqn:EL.
      - apply eqb_eq in EL. replace (eqb R (Some (Mat m))) with false in Dm |- *.
        2:{ symmetry. apply eqb_false. congruence. }
        rewrite app_nil_r in Dm |- *. cbn [app] in Dm.
        destruct (is_net R) eqn:NR.
        + rewrite vdiel_nil; [|rewrite dirs_sub, has_piece_dirs, all_cond_dirs, EL, NR; reflexivity].
          rewrite EL. destruct R as [[n|m']|]; try discriminate. reflexivity.
        + rewrite (vdiel_one i m false mats NLR EL 0); auto.
          2:{ rewrite dirs_sub, has_piece_dirs, all_cond_dirs, NR, Dm, EL. reflexivity. }
          cbn [outside_of]. specialize (Spec false). cbn [inside_of outside_of] in Spec.
          rewrite EL. destruct R as [[n|m']|] eqn:ER; [discriminate| |reflexivity].
          apply (Spec m' EL eq_refl).
      - cbn [app] in Dm. destruct (eqb R (Some (Mat m))) eqn:ER.
        + apply eqb_eq in ER. cbn [app] in *. destruct (is_net L) eqn:NL.
          * rewrite vdiel_nil; [|rewrite dirs_sub, has_piece_dirs, all_cond_dirs, ER, NL; reflexivity].
            rewrite ER. destruct L as [[n|m']|]; try discriminate. reflexivity.
          * rewrite (vdiel_one i m true mats NLR ER 0); auto.
            2:{ rewrite dirs_sub, has_piece_dirs, all_cond_dirs, NL, Dm, ER. reflexivity. }
            cbn [outside_of]. specialize (Spec true). cbn [inside_of outside_of] in Spec.
            rewrite ER. destruct L as [[n|m']|] eqn:EL2; [discriminate| |reflexivity].
            apply (Spec m' ER eq_refl).
        + apply vdiel_nil. rewrite dirs_sub, Dm. destruct (has_piece _ e); reflexivity. }
  (* nets *)
  rewrite (flat_map_ext_in _ (fun n => 
     (if eqb L (Some (Net n)) then expected_side mats L R false else []) ++
     (if eqb R (Some (Net n)) then expected_side mats R L true else [])) nets).
  2:{ intros n J.
      change (verticals z zz e (vcond_loop left_of right_of pieces z zz st n mats (edges (dgr st (Net n)))) =
        (if eqb L (Some (Net n)) then expected_side mats L R false else []) ++ (if eqb R (Some (Net n)) then expected_side mats R L true else [])).
      assert (Dn : dirs (edges (dgr st (Net n))) e = (if eqb L (Some (Net n)) then [false] else []) ++ (if eqb R (Some (Net n)) then [true] else [])).
      { rewrite (dirs_state (Net n)), ELR by (apply Hnet, J). reflexivity. }
      destruct (eqb L (Some (Net n))) eqn:EL.
      - apply eqb_eq in EL. replace (eqb R (Some (Net n))) with false in Dn |- *.
        2:{ symmetry. apply eqb_false. congruence. }
        rewrite (vcond_one n false mats NLR EL); auto.
        rewrite find_owner_mat by (cbn; intros m; apply Ownmat). rewrite EL, app_nil_r. reflexivity.
      - destruct (eqb R (Some (Net n))) eqn:ER; [|apply vcond_nil; exact Dn].
        apply eqb_eq in ER. rewrite (vcond_one n true mats NLR ER); auto.
        rewrite find_owner_mat by (cbn; intros m; apply Ownmat). rewrite ER. reflexivity. }
  rewrite (enum_map (fun m => (if eqb L (Some (Mat m)) then expected_side mats L R false else []) ++ (if eqb R (Some (Mat m)) then expected_side mats R L true else []))).
  rewrite !flat_map_pair. rewrite !flat_map_owner_mat, !flat_map_owner_net; auto; try (intros; eapply Ownmat; eassumption); try (intros; eapply Ownnet; eassumption).
  destruct L as [[n|m]|], R as [[n'|m']|]; cbn [app]; rewrite ?app_nil_r; try reflexivity;
    try apply Permutation_app_comm.
Qed.
Lemma walls_other z' zz' e' : (z' <> z \/ zz' <> zz) -> verticals z' zz' e' wall_surfaces = [].
Proof.
  intros D. assert (E : Z.eqb z' z && Z.eqb zz' zz = false).
  { apply andb_false_iff. destruct D; [left|right]; apply Z.eqb_neq; assumption. }
  assert (V1 : forall i m mnos o lin, verticals z' zz' e' (vdiel_loop left_of right_of pieces z zz st i m o mnos lin : list surface) = []).
  { intros i m mnos. induction mnos as [|x t IH]; intros o lin; cbn [vdiel_loop]; [rewrite vl_diel, E; reflexivity|].
    destruct (Nat.eqb i o); [apply IH|]. rewrite verticals_app, IH. destruct (Nat.ltb i o); [|reflexivity]. rewrite vl_diel_swapped, E. reflexivity. }
  assert (V2 : forall n mnos lin, verticals z' zz' e' (vcond_loop left_of right_of pieces z zz st n mnos lin : list surface) = []).
  { intros n mnos. induction mnos as [|x t IH]; intros lin; cbn [vcond_loop]; [rewrite vl_cond, E; reflexivity|].
    rewrite verticals_app, IH, vl_cond_swapped, E. reflexivity. }
  unfold wall_surfaces. rewrite verticals_app. unfold verticals. rewrite !flat_map_flat_map.
  rewrite !flat_map_none; [reflexivity|intros; apply V2|intros; apply V1].
Qed.
Lemma walls_horizontal z' p : horizontals z' p wall_surfaces = [].
Proof.
  assert (M : forall {A} (f : A -> surface) l, (forall x, hlabel_at z' p (f x) = []) -> horizontals z' p (map f l) = []).
  { intros A f l E. unfold horizontals. rewrite flat_map_concat_map, map_map, <- flat_map_concat_map. apply flat_map_none. auto. }
  assert (V1 : forall i m mnos o lin, horizontals z' p (vdiel_loop left_of right_of pieces z zz st i m o mnos lin : list surface) = []).
  { intros i m mnos. induction mnos as [|x t IH]; intros o lin; cbn [vdiel_loop]; [apply M; reflexivity|].
    destruct (Nat.eqb i o); [apply IH|]. rewrite horizontals_app, IH. destruct (Nat.ltb i o); [|reflexivity]. rewrite M; reflexivity. }
  assert (V2 : forall n mnos lin, horizontals z' p (vcond_loop left_of right_of pieces z zz st n mnos lin : list surface) = []).
  { intros n mnos. induction mnos as [|x t IH]; intros lin; cbn [vcond_loop]; [apply M; reflexivity|].
    rewrite horizontals_app, IH, M; reflexivity. }
  unfold wall_surfaces. rewrite horizontals_app, !horizontals_flat_map.
  rewrite !flat_map_none; [reflexivity|intros; apply V2|intros; apply V1].
Qed.
End Walls.
End Sweep.
