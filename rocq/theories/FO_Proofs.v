(** The first conductor that FasterCap reads, for C114. *)
From Coq Require Import ZArith Reals String List Permutation Sorted Lra Lia.
From Flocq Require Import Core.Core IEEE754.BinarySingleNaN.
From Verif Require Import PyBase PyLib FP_Model FP_Spec TG_Model TG_Spec ST_Model ST_Spec GF_Spec GF_Model VX_Model VX_Spec VX_Walls FO_Model FO_Spec.
From Verif Require FG_Model SW_Model SW_Spec SW_Run SW_Sweep SW_Proofs VX_Views VX_Sweep VX_Main GF_Props.
Import ListNotations.
Local Close Scope Qc_scope.
Local Open Scope list_scope.

(** ** The first key of a dictionary stays *)
Section Head.
Context {K V : Type} {EK : EqDec K}.
Definition starts_with (P : V -> Prop) (k : K) (d : dict K V) : Prop := exists v d', d = (k, v) :: d' /\ P v.
Lemma dset_starts (P : V -> Prop) k d k' v : starts_with P k d -> (k' = k -> P v) -> starts_with P k (dset d k' v).
Proof.
  intros (w & d' & -> & H) Q. cbn. destruct (eq_dec k' k) as [E|E].
  - subst k'. exists v, d'. split; [reflexivity|auto].
  - exists w, (dset d' k' v). split; [reflexivity|exact H].
Qed.
Lemma starts_get (P : V -> Prop) k d : starts_with P k d -> exists v, dget d k = Some v /\ P v.
Proof. intros (v & d' & -> & H). exists v. cbn. destruct (eq_dec k k); [auto|congruence]. Qed.
End Head.
Lemma data_first dbu s l : cond_tris dbu s <> [] -> starts_with (fun ts => ts <> []) (cond_key s) (cond_data dbu (s :: l)).
Proof.
  intros N. unfold cond_data. cbn [fold_left].
  assert (H : starts_with (fun ts => ts <> []) (cond_key s) (append [] (cond_key s) (cond_tris dbu s))) by (exists (cond_tris dbu s), []; split; [reflexivity|exact N]).
  revert H. generalize (append [] (cond_key s) (cond_tris dbu s)). clear N. induction l as [|t l IH]; intros d H; cbn [fold_left]; [exact H|]. apply IH. apply dset_starts; [exact H|].
  intros E. destruct (starts_get _ _ _ H) as (v & D & NE). rewrite E, D. destruct v; [congruence|discriminate].
Qed.
Lemma group_keeps n : forall (d : dict (string * option string) (list TG_Model.tri)) g, starts_with (fun _ => True) n g ->
  exists l, dkeys (fold_left FG_Model.group_add d g) = n :: l.
Proof.
  induction d as [|e d IH]; intros g H; cbn [fold_left].
  - destruct H as (v & g' & -> & _). exists (dkeys g'). reflexivity.
  - apply IH. unfold FG_Model.group_add. match goal with |- context [if ?c then _ else _] => destruct c end; [|exact H]. apply dset_starts; auto.
Qed.
Lemma group_first (d : dict (string * option string) (list TG_Model.tri)) k : starts_with (fun ts => ts <> []) k d -> exists l, dkeys (FG_Model.group d) = fst k :: l.
Proof.
  intros (ts & d' & -> & N). unfold FG_Model.group. cbn [fold_left]. apply group_keeps. unfold FG_Model.group_add. cbn [fst snd]. destruct ts as [|t ts]; [congruence|]. cbn [FG_Model.nonempty].
  exists [(snd k, t :: ts)], []. split; [reflexivity|exact I].
Qed.
Lemma first_key dbu s l : cond_tris dbu s <> [] -> exists t, dkeys (FG_Model.group (cond_data dbu (s :: l))) = net_of s :: t.
Proof. intros N. destruct (group_first _ _ (data_first dbu s l N)) as (t & E). exists t. rewrite E. destruct s; reflexivity. Qed.

(** ** The first surface of the sweep *)
Section Sweep.
Context {face : Type} {EF : EqDec face} {piece : Type} {EP : EqDec piece}.
Variables (left_of right_of : piece -> face) (pieces : list piece).
Notation gen := (@SW_Model.gen face piece).
Notation surface := (@SW_Model.surface face piece).
Lemma level_adds b (g : gen) z : exists out, SW_Model.surfaces (SW_Model.level left_of right_of pieces b g z) = SW_Model.surfaces g ++ out.
Proof.
  unfold SW_Model.level, SW_Model.finish_z. cbn [SW_Model.surfaces]. rewrite !VX_Sweep.surfaces_all_events. unfold SW_Model.next_z. destruct (SW_Model.g_z g); cbn [SW_Model.surfaces].
  - eexists. rewrite <- app_assoc. reflexivity.
  - eexists. reflexivity.
Qed.
Lemma levels_add b zs : forall g : gen, exists out, SW_Model.surfaces (fold_left (SW_Model.level left_of right_of pieces b) zs g) = SW_Model.surfaces g ++ out.
Proof.
  induction zs as [|z zs IH]; intros g; cbn [fold_left]; [exists []; now rewrite app_nil_r|]. destruct (IH (SW_Model.level left_of right_of pieces b g z)) as (o & E). destruct (level_adds b g z) as (o' & E').
  exists (o' ++ o). now rewrite E, E', app_assoc.
Qed.
Lemma levels_solid b zs : Forall (VX_Sweep.solid pieces) (SW_Model.surfaces (SW_Model.run left_of right_of pieces b zs : gen)).
Proof.
  unfold SW_Model.run. assert (R : forall g : gen, Forall (VX_Sweep.solid pieces) (SW_Model.surfaces g) -> Forall (VX_Sweep.solid pieces) (SW_Model.surfaces (fold_left (SW_Model.level left_of right_of pieces b) zs g))).
  { induction zs as [|z l IH]; intros h G; cbn [fold_left]; [exact G|]. apply IH, VX_Sweep.solid_level, G. }
  apply R. constructor.
Qed.
(** who has a surface *)
Definition cond_net (s : surface) : option string := match s with SW_Model.HCondIn _ n _ _ | SW_Model.HCondOut _ n _ _ => Some n | _ => None end.
Variables (dbu : Qc) (cs : list (@SW_Model.call face)) (b : @SW_Model.builder face).
Hypothesis Np : NoDup pieces.
Hypothesis B : SW_Model.build dbu cs = Some b.
Hypothesis Two : (2 <= List.length (SW_Spec.priority cs))%nat.
Variables (s : string) (k : Z) (p0 : face).
Hypothesis Here : SW_Spec.present_above dbu cs k p0 (Net s) = true.
Hypothesis Above : forall z p net, SW_Spec.present_above dbu cs z p (Net net) = true -> (k < z)%Z \/ z = k /\ net = s.
Hypothesis Below : forall z p net, SW_Spec.present_below dbu cs z p (Net net) = true -> (k < z)%Z.
Lemma label_net z p net : (z <= k)%Z -> (exists m, In (SW_Spec.LBottom net m) (SW_Run.labels_z dbu cs z p) \/ In (SW_Spec.LTop net m) (SW_Run.labels_z dbu cs z p)) -> net = s.
Proof.
  intros Z (m & H). assert (Q : SW_Spec.present_above dbu cs z p (Net net) = true \/ SW_Spec.present_below dbu cs z p (Net net) = true).
  { unfold SW_Run.labels_z, SW_Sweep.labels in H. cbn zeta in H. rewrite !in_app_iff, !in_flat_map in H.
    assert (Q1 : forall a c, SW_Proofs.inb a c (SW_Spec.priority cs) (Net net) = true -> a (Net net) = true) by (intros a c F; unfold SW_Proofs.inb in F; apply andb_true_iff in F; tauto).
    repeat match goal with
    | H : _ \/ _ |- _ => destruct H as [H|H]
    | H : exists _, _ |- _ => destruct H as (x & _ & H)
    end; match type of H with In _ (if ?c then _ else _) => destruct c eqn:E; [|destruct H] end; destruct H as [H|[]]; try discriminate H; injection H as -> _.
    - left. exact (Q1 _ _ E).
    - apply andb_true_iff in E. right. exact (Q1 _ _ (proj1 E)). }
  destruct Q as [Q|Q]; [apply Above in Q; destruct Q as [Q|[_ Q]]; [lia|exact Q]|apply Below in Q; lia].
Qed.
Theorem first_surface g : SW_Model.generate left_of right_of pieces b = Some g ->
  exists before x after, SW_Model.surfaces g = before ++ x :: after /\ Forall (fun y => cond_net y = None) before /\ cond_net x = Some s /\ VX_Sweep.solid pieces x.
Proof.
  intros Ge. pose proof (SW_Run.build_described dbu cs b B) as De. destruct (SW_Run.z_levels_ok dbu cs b De) as [Sd Lv].
  assert (Ik : In k (SW_Model.z_levels b)).
  { destruct (in_dec Z.eq_dec k (SW_Model.z_levels b)) as [J|J]; [exact J|exfalso]. assert (N : ~ SW_Spec.is_level dbu cs k) by (rewrite <- Lv; exact J).
    pose proof (SW_Run.present_no_level dbu cs k p0 (Net s) N) as Q. rewrite Here in Q. apply Below in Q. lia. }
  apply in_split in Ik. destruct Ik as (l1 & l2 & El).
  assert (Lo : forall z, In z (l1 ++ [k]) -> (z <= k)%Z).
  { intros z J. apply in_app_or in J. destruct J as [J|[<-|[]]]; [|lia]. rewrite El in Sd. pose proof (proj1 (SW_Run.sorted_app l1 l2 k z Sd) J). lia. }
  pose proof (SW_Run.run_ok left_of right_of pieces Np dbu cs b De Two (l1 ++ [k]) l2) as R. rewrite <- app_assoc in R. specialize (R El).
  set (g1 := SW_Model.run left_of right_of pieces b (l1 ++ [k])) in *.
  assert (Eg : exists out, SW_Model.surfaces g = SW_Model.surfaces g1 ++ out).
  { unfold SW_Model.generate in Ge. rewrite El in Ge. assert (X : exists y t, l1 ++ k :: l2 = y :: t) by (destruct l1; cbn; eauto). destruct X as (y & t & X). rewrite X in Ge. injection Ge as <-. rewrite <- X.
    unfold SW_Model.run. replace (l1 ++ k :: l2) with ((l1 ++ [k]) ++ l2) by (rewrite <- app_assoc; reflexivity). rewrite fold_left_app. apply levels_add. }
  destruct Eg as (out & Eg). pose proof (levels_solid b (l1 ++ [k])) as So. fold g1 in So. rewrite Forall_forall in So.
  (* each of them is of the net *)
  assert (All : forall x net, In x (SW_Model.surfaces g1) -> cond_net x = Some net -> net = s).
  { intros x net I C. pose proof (So x I) as S. assert (Q : exists z p m, In (SW_Spec.LBottom net m) (SW_Spec.horizontals z p (SW_Model.surfaces g1)) \/ In (SW_Spec.LTop net m) (SW_Spec.horizontals z p (SW_Model.surfaces g1))).
    { destruct x as [z m m' r|z n m r|z n m r|z zz m m' e|z zz n m e]; try discriminate C; injection C as ->; cbn [VX_Sweep.solid] in S; destruct r as [|p r]; try congruence; exists z, p, m; [left|right];
        apply in_flat_map; eexists; (split; [exact I|]); cbn; rewrite Z.eqb_refl, eqb_refl; now left. }
    destruct Q as (z & p & m & Q). destruct (in_dec Z.eq_dec z (l1 ++ [k])) as [J|J].
    - rewrite (SW_Run.ri_h _ _ _ _ _ _ _ R z p J) in Q. apply (label_net z p net (Lo z J)). eauto.
    - rewrite (SW_Run.ri_h0 _ _ _ _ _ _ _ R z p J) in Q. destruct Q as [[]|[]]. }
  (* and there is one *)
  assert (Some_one : exists x, In x (SW_Model.surfaces g1) /\ cond_net x <> None).
  { assert (J : In k (l1 ++ [k])) by (apply in_or_app; right; now left). pose proof (SW_Run.ri_h _ _ _ _ _ _ _ R k p0 J) as H.
    assert (OB : SW_Spec.owner_below dbu cs k p0 = None \/ exists m, SW_Spec.owner_below dbu cs k p0 = Some (Mat m)).
    { destruct (SW_Spec.owner_below dbu cs k p0) as [[n|m]|] eqn:E; [|eauto|auto]. unfold SW_Spec.owner_below in E. apply SW_Proofs.find_In in E. destruct E as [_ E]. apply Below in E. lia. }
    assert (Is : In s (SW_Spec.nets_of cs)).
    { unfold SW_Spec.present_above in Here. apply existsb_exists in Here. destruct Here as (c & Ic & Q). destruct (SW_Spec.call_adds dbu c (Net s)) as [[[r z0] z1]|] eqn:A; [|discriminate].
      apply SW_Run.existsb_In. unfold SW_Spec.nets_of. rewrite SW_Run.existsb_firsts. apply SW_Run.existsb_In, in_flat_map. exists c. split; [exact Ic|].
      destruct c as [m|n r' z' h|m r' z' h]; cbn [SW_Spec.call_adds] in A; try discriminate A. destruct (eqb n s) eqn:E; [|discriminate A]. apply eqb_eq in E. subst n. now left. }
    assert (OA : SW_Spec.owner_above dbu cs k p0 = Some (Net s)).
    { unfold SW_Spec.owner_above, SW_Spec.priority. rewrite SW_Proofs.find_app. destruct (find (SW_Spec.present_above dbu cs k p0) (map Net (SW_Spec.nets_of cs))) as [w|] eqn:F.
      - apply SW_Proofs.find_In in F. destruct F as [F F']. apply in_map_iff in F. destruct F as (n & <- & _). apply Above in F'. destruct F' as [F'|[_ ->]]; [lia|reflexivity].
      - pose proof (find_none _ _ F (Net s) (in_map _ _ _ Is)). congruence. }
    assert (L : exists m, In (SW_Spec.LBottom s m) (SW_Run.labels_z dbu cs k p0)).
    { assert (X : exists m, In (SW_Spec.LBottom s m) (SW_Spec.expected_h (SW_Spec.owner_below dbu cs k p0) (SW_Spec.owner_above dbu cs k p0))).
      { rewrite OA. destruct OB as [->|(m & ->)]; eexists; now left. }
      destruct X as (m & X). exists m. unfold SW_Run.labels_z. cbn zeta. apply SW_Sweep.labels_complete; [|exact X]. fold (SW_Spec.priority cs).
      change (find (SW_Spec.present_below dbu cs k p0) (SW_Spec.priority cs)) with (SW_Spec.owner_below dbu cs k p0). intros [_ Q]. destruct OB as [OB|(m' & OB)]; rewrite OB in Q; discriminate. }
    destruct L as (m & L). rewrite <- H in L. apply in_flat_map in L. destruct L as (x & I & L). exists x. split; [exact I|].
    destruct x; cbn in L |- *; try discriminate; try (destruct L; fail); match type of L with In _ (if ?c then _ else _) => destruct c; [|destruct L] end; destruct L as [L|[]]; discriminate. }
  clear R. rewrite Eg. clear Eg. revert All So Some_one. generalize (SW_Model.surfaces g1). intros L. induction L as [|x L IH]; intros All So (y & I & C); [destruct I|].
  destruct (cond_net x) as [net|] eqn:E.
  - exists [], x, (L ++ out). split; [reflexivity|]. split; [constructor|]. split; [|apply So; now left]. rewrite E. f_equal. apply (All x net); [now left|exact E].
  - destruct IH as (l & w & t & E1 & E2 & E3).
    + intros w net J. apply All. now right.
    + intros w J. apply So. now right.
    + destruct I as [<-|I]; [congruence|]. eauto.
    + exists (x :: l), w, t. split; [cbn; f_equal; exact E1|]. split; [constructor; assumption|exact E3].
Qed.
End Sweep.

(** ** From the layout to what is read *)
Section Layout.
Variables (ls : list layer) (s : string).
Hypothesis Low : lies_lowest ls s.
Notation us := (map as_call ls).
Lemma filled q net : present ls q (Net net) = true -> exists r a b, In (Body (Net net) r a b) ls /\ r <> [] /\ (a <= snd q < b)%Z.
Proof.
  intros H. apply existsb_exists in H. destruct H as (l & I & F). destruct l as [m v|w r a b]; [discriminate F|]. cbn [fills] in F. apply andb_true_iff in F. destruct F as [F F3]. apply andb_true_iff in F. destruct F as [F F2].
  apply andb_true_iff in F. destruct F as [F0 F1]. apply eqb_eq in F0. subst w. exists r, a, b. split; [exact I|]. split; [intros ->; discriminate F3|]. lia.
Qed.
Lemma lowest_place : exists k p, SW_Spec.present_above 1%Qc us k p (Net s) = true /\
  (forall z p net, SW_Spec.present_above 1%Qc us z p (Net net) = true -> (k < z)%Z \/ z = k /\ net = s) /\
  (forall z p net, SW_Spec.present_below 1%Qc us z p (Net net) = true -> (k < z)%Z).
Proof.
  destruct Low as (r & a & b & I & N & Lt & Others). destruct r as [|p r]; [congruence|]. exists a, p. split; [|split].
  - rewrite present_as. apply existsb_exists. exists (Body (Net s) (p :: r) a b). split; [exact I|]. cbn [fills fst snd existsb]. rewrite !eqb_refl. cbn. apply andb_true_iff. split; [|reflexivity]. lia.
  - intros z q net H. rewrite present_as in H. apply filled in H. destruct H as (r' & a' & b' & I' & N' & B). cbn [snd] in B. destruct (Others _ _ _ _ I' N') as [X|[-> X]]; [lia|left; lia|].
    destruct (Z.eq_dec z a); [right; auto|left; lia].
  - intros z q net H. rewrite present_as_below in H. apply filled in H. destruct H as (r' & a' & b' & I' & N' & B). cbn [snd] in B. destruct (Others _ _ _ _ I' N') as [X|[_ X]]; lia.
Qed.
End Layout.
Section Main.
Variables (n d : Z) (k_void : Qc) (delaunay : list cell -> list grid_tri) (along : grid_point -> plane -> Z) (square : float -> float) (limit : nat).
Variables (prefix : string) (hash : string -> string) (cs : list call) (ls : list layer) (old new : files) (s : string).
Hypothesis G : grid_ok n d.
Hypothesis TR : triangulates delaunay.
Hypothesis W : whole_exact along.
Hypothesis SQ : squares square.
Hypothesis ME : Forall2 (means n d) cs ls.
Hypothesis NE : Forall layer_near ls.
Hypothesis NA : Forall layer_named ls.
Hypothesis NP : unbroken prefix.
Hypothesis NH : forall x, unbroken (hash x).
Hypothesis Two : (2 <= List.length (everyone ls))%nat.
Hypothesis Run : fastercap_files (lit n d) delaunay along square limit prefix k_void hash cs old = Some new.
Hypothesis Low : lies_lowest ls s.
Notation dbu := (lit n d).
Notation us := (map as_call ls).
Notation pieces := (all_pieces us).
Lemma covered r : Forall cell_near r -> r <> [] -> delaunay r <> [].
Proof.
  intros N Ne E. destruct r as [|[x y] r]; [congruence|]. destruct (proj2 (TR _ N) x y (1 / 2)%R (1 / 2)%R) as (f & P & Q); [lra|lra|rewrite E; intros g []|].
  rewrite E in P. inversion P; subst f. match type of Q with _ = (if ?c then _ else _) => destruct c as [J|J] end; [discriminate Q|]. apply J. now left.
Qed.
Theorem first_read : exists rcs rds, reads new (prefix ++ ".lst") rcs rds /\ exists c t, rcs = c :: t /\ name c = s.
Proof.
  destruct (VX_Main.run_parts n d k_void delaunay along square limit prefix hash cs ls old new G W ME NE Two Run) as (b & g & ec & ed & B & Ge & KC & KD & Input).
  set (dl := flat_map (h_diel dbu delaunay) (SW_Model.surfaces g) ++ _) in Input. set (cl := flat_map (h_cond dbu delaunay) (SW_Model.surfaces g) ++ _) in Input.
  destruct (GF_Props.read_all n d square limit prefix k_void (values ls) hash dl cl G SQ) with (old := old) (new := new) as (rcs & rds & Rd & Na & _).
  - apply Forall_forall. intros x I. eapply VX_Main.cond_from; eassumption.
  - apply Forall_forall. intros x I. eapply VX_Main.diel_from; eassumption.
  - apply Forall_forall. intros x I. cut (diel_ok x /\ VX_Sweep.label_ok (nets ls) (declared ls) (SW_Spec.LDiel (fst (materials x)) (snd (materials x)))); [intros [_ (A & _)]; exact A|]. eapply VX_Main.diel_from; eassumption.
  - eapply VX_Main.all_names; eassumption.
  - exact Input.
  - exists rcs, rds. split; [exact Rd|].
    destruct (lowest_place ls s Low) as (k & p & H1 & H2 & H3). assert (Two' : (2 <= List.length (SW_Spec.priority us))%nat) by (rewrite priority_as; exact Two).
    destruct (first_surface piece_left piece_right pieces 1%Qc us b (NoDup_nodup _ _) B Two' s k p H1 H2 H3 g Ge) as (pre & x & post & E & Pre & C & So).
    assert (Ix : In x (SW_Model.surfaces g)) by (rewrite E; apply in_or_app; right; now left).
    assert (Nx : VX_Views.surface_near x) by (eapply VX_Main.near; eassumption).
    assert (Hx : exists y, h_cond dbu delaunay x = [y] /\ net_of y = s /\ cond_tris dbu y <> []).
    { destruct x as [|z net m r|z net m r| |]; try discriminate C; injection C as ->; cbn [h_cond]; eexists; (split; [reflexivity|]); (split; [reflexivity|]); destruct Nx as [_ Nr]; cbn [VX_Sweep.solid] in So;
        pose proof (covered r Nr So) as Q; cbn [cond_tris]; unfold generate_hcond_in, generate_hcond_out; (destruct (delaunay r) as [|g0 l0]; [congruence|cbn [map]; discriminate]). }
    destruct Hx as (y & Hy & Ny & Ty). assert (Ecl : exists rest, cl = y :: rest).
    { subst cl. rewrite E, flat_map_app. cbn [flat_map]. rewrite Hy.
      assert (Z : flat_map (h_cond dbu delaunay) pre = []) by (clear - Pre; induction Pre as [|w l H P IH]; [reflexivity|]; cbn; rewrite IH, app_nil_r; destruct w; reflexivity || discriminate H).
      rewrite Z. cbn [app]. eauto. }
    destruct Ecl as (rest & Ecl). rewrite Ecl in Na. destruct (first_key dbu y rest Ty) as (t & Ft). rewrite Ft in Na. destruct rcs as [|c rcs]; [discriminate Na|]. injection Na as Na _. exists c, rcs. split; [reflexivity|]. congruence.
Qed.
End Main.
