(** C93, C94: the triangles for FasterCap. *)
From Coq Require Import ZArith Reals Lra Lia Psatz List String Permutation.
From Flocq Require Import Core.Core IEEE754.BinarySingleNaN.
From Verif Require Import PyBase PyLib FP_Model FP_Spec FP_Proofs FC_Spec FC_Proofs TG_Model TG_Spec TG_Proofs.
From Verif Require FG_Model FG_Spec FG_Proofs FP_Props.
Import ListNotations.
Local Close Scope Qc_scope.
Local Open Scope R_scope.

(** ** C93 *)
Lemma in_append {K} {E : EqDec K} (d : dict K (list tri)) k l k' t :
  (exists ts, dget (append d k l) k' = Some ts /\ In t ts) -> (exists ts, dget d k' = Some ts /\ In t ts) \/ k' = k /\ In t l.
Proof.
  intros (ts & G & I). unfold append in G. destruct (E k' k) as [->|N].
  - rewrite dget_dset_same in G. injection G as <-. apply in_app_or in I. destruct I as [I|I]; [|now right]. left. destruct (dget d k) as [l0|] eqn:Q; [|destruct I]. now exists l0.
  - rewrite dget_dset_other in G by congruence. left. now exists ts.
Qed.
Lemma diel_in dbu l k t : (exists ts, dget (diel_data dbu l) k = Some ts /\ In t ts) -> exists s, In s l /\ diel_key s = k /\ In t (diel_tris dbu s).
Proof.
  unfold diel_data. rewrite <- (rev_involutive l). induction (rev l) as [|s r IH]; [intros (ts & G & _); discriminate|].
  cbn [rev]. rewrite fold_left_app. cbn [fold_left]. intros H. apply in_append in H. destruct H as [H|[-> H]].
  - destruct (IH H) as (s' & I & K & T). exists s'. split; [apply in_or_app; now left|now split].
  - exists s. split; [apply in_or_app; right; now left|now split].
Qed.
Lemma cond_in dbu l k t : (exists ts, dget (cond_data dbu l) k = Some ts /\ In t ts) -> exists s, In s l /\ cond_key s = k /\ In t (cond_tris dbu s).
Proof.
  unfold cond_data. rewrite <- (rev_involutive l). induction (rev l) as [|s r IH]; [intros (ts & G & _); discriminate|].
  cbn [rev]. rewrite fold_left_app. cbn [fold_left]. intros H. apply in_append in H. destruct H as [H|[-> H]].
  - destruct (IH H) as (s' & I & K & T). exists s'. split; [apply in_or_app; now left|now split].
  - exists s. split; [apply in_or_app; right; now left|now split].
Qed.
Lemma diel_wf dbu l : NoDup (dkeys (diel_data dbu l)).
Proof.
  unfold diel_data. rewrite <- (rev_involutive l). induction (rev l) as [|s r IH]; [constructor|]. cbn [rev]. rewrite fold_left_app. cbn [fold_left]. now apply dwf_dset.
Qed.
Lemma diel_faces square dbu s t : squares square -> unit_ok dbu -> diel_ok s -> In t (diel_tris dbu s) ->
  faces square t (diel_side s) /\ faces square (reversed t) (opposite (diel_side s)).
Proof.
  intros SQ U O I. destruct s as [below above z ts|outside inside e ts]; cbn [diel_tris diel_side] in *; destruct O as [H F]; rewrite Forall_forall in F; apply in_map_iff in I; destruct I as (g & <- & I).
  - destruct (h_ok square dbu z g SQ U H (F g I)) as [A B]. split; [exact A|]. unfold opposite, down. replace (- 0) with 0 by ring. replace (- -1) with 1 by ring. exact B.
  - exact (v_ok square dbu e g SQ U H (F g I)).
Qed.
Lemma under_in (d : dict (option string * option string) (list tri)) k t : In t (FG_Spec.under d k) -> exists ts, dget d k = Some ts /\ In t ts.
Proof. unfold FG_Spec.under. match goal with |- In t match ?a with _ => _ end -> _ => change a with (dget d k) end. destruct (dget d k) as [l0|]; [intros I; now exists l0|intros []]. Qed.
(** In the file of every pair of materials, the reference point of every triangle is on the side of the first one. *)
Theorem C93_dielectric : forall square dbu l, squares square -> unit_ok dbu -> Forall diel_ok l ->
  exists d, FG_Model.combine_diel (diel_data dbu l) = Some d /\
    forall k ts t, In (k, ts) d -> In t ts ->
      exists s v, In s l /\ (k = materials s \/ k = (snd (materials s), fst (materials s))) /\ towards s (fst k) v /\ faces square t v.
Proof.
  change materials with diel_key.
  intros square dbu l SQ U O. rewrite Forall_forall in O. destruct (FG_Proofs.combine_ok (diel_data dbu l) (diel_wf dbu l)) as (d & C & (W & K1 & K2 & K3 & P & Q)). exists d. split; [exact C|].
  intros k ts t I It. assert (Ik : In k (dkeys d)) by (apply (in_map fst) in I; exact I).
  assert (G : FG_Spec.under d k = ts) by (unfold FG_Spec.under; erewrite In_dget by eassumption; reflexivity).
  assert (X : In t (FG_Spec.under (diel_data dbu l) k) \/ In t (map FG_Spec.turned (FG_Spec.under (diel_data dbu l) (FG_Spec.flip k)))).
  { destruct (eq_dec k (FG_Spec.flip k)) as [E|N].
    - right. rewrite <- E. rewrite <- (Q k Ik E), G. exact It.
    - apply in_app_or. eapply Permutation_in; [exact (P k Ik N)|]. now rewrite G. }
  destruct X as [X|X].
  - destruct (diel_in dbu l k t) as (s & Is & Ks & Ts).
    { apply under_in. exact X. }
    exists s, (diel_side s). split; [exact Is|]. split; [now left|]. split; [left; change (materials s) with (diel_key s); now rewrite Ks|]. exact (proj1 (diel_faces square dbu s t SQ U (O s Is) Ts)).
  - apply in_map_iff in X. destruct X as (t' & <- & X). destruct (diel_in dbu l (FG_Spec.flip k) t') as (s & Is & Ks & Ts).
    { apply under_in. exact X. }
    exists s, (opposite (diel_side s)). split; [exact Is|]. rewrite Ks. destruct k as [a b]. cbn [FG_Spec.flip fst snd]. split; [now right|]. split; [right; change (materials s) with (diel_key s); now rewrite Ks|].
    exact (proj2 (diel_faces square dbu s t' SQ U (O s Is) Ts)).
Qed.
(** The reference point of every triangle of a conductor is outside of it. *)
Theorem C93_conductor : forall square dbu l k ts t, squares square -> unit_ok dbu -> Forall cond_ok l -> In (k, ts) (cond_data dbu l) -> In t ts ->
  exists s, In s l /\ net_and_outside s = k /\ faces square t (cond_side s).
Proof.
  change net_and_outside with cond_key.
  intros square dbu l k ts t SQ U O I It. rewrite Forall_forall in O.
  assert (W : NoDup (dkeys (cond_data dbu l))).
  { clear. unfold cond_data. rewrite <- (rev_involutive l). induction (rev l) as [|s r IH]; [constructor|]. cbn [rev]. rewrite fold_left_app. cbn [fold_left]. now apply dwf_dset. }
  destruct (cond_in dbu l k t) as (s & Is & Ks & Ts); [exists ts; split; [now apply In_dget|exact It]|].
  exists s. split; [exact Is|]. split; [exact Ks|]. specialize (O s Is). clear - SQ U O Ts.
  destruct s as [net below z ts|net above z ts|net outside e ts]; cbn [cond_tris cond_side] in *; destruct O as [H F]; rewrite Forall_forall in F; apply in_map_iff in Ts; destruct Ts as (g & <- & I).
  - exact (proj1 (h_ok square dbu z g SQ U H (F g I))).
  - exact (proj2 (h_ok square dbu z g SQ U H (F g I))).
  - exact (proj1 (v_ok square dbu e g SQ U H (F g I))).
Qed.
Lemma append_get {K} {E : EqDec K} (d : dict K (list tri)) k l k' : (match dget (append d k l) k' with Some x => x | None => [] end = match dget d k' with Some x => x | None => [] end ++ if E k' k then l else [])%list.
Proof.
  unfold append. destruct (E k' k) as [->|N]; [now rewrite dget_dset_same|]. rewrite dget_dset_other by congruence. now rewrite app_nil_r.
Qed.
(** Under each pair of materials are the triangles of the surfaces between the two, in their order; nothing is lost or added. *)
Theorem C93_collected : forall dbu l k,
  match dget (diel_data dbu l) k with Some x => x | None => [] end = flat_map (diel_tris dbu) (filter (fun s => if eq_dec (materials s) k then true else false) l).
Proof.
  change materials with diel_key.
  intros dbu l k. unfold diel_data. rewrite <- (rev_involutive l). induction (rev l) as [|s r IH]; [reflexivity|].
  cbn [rev]. rewrite fold_left_app. cbn [fold_left]. rewrite append_get, filter_app, flat_map_app, IH. f_equal. cbn [filter].
  match goal with |- (if ?a then _ else _) = _ => destruct a as [A|A] end; match goal with |- context [if ?b then true else false] => destruct b as [B|B] end; try congruence; cbn [flat_map]; now rewrite ?app_nil_r.
Qed.
Theorem C93_collected_conductor : forall dbu l k,
  match dget (cond_data dbu l) k with Some x => x | None => [] end = flat_map (cond_tris dbu) (filter (fun s => if eq_dec (net_and_outside s) k then true else false) l).
Proof.
  change net_and_outside with cond_key.
  intros dbu l k. unfold cond_data. rewrite <- (rev_involutive l). induction (rev l) as [|s r IH]; [reflexivity|].
  cbn [rev]. rewrite fold_left_app. cbn [fold_left]. rewrite append_get, filter_app, flat_map_app, IH. f_equal. cbn [filter].
  match goal with |- (if ?a then _ else _) = _ => destruct a as [A|A] end; match goal with |- context [if ?b then true else false] => destruct b as [B|B] end; try congruence; cbn [flat_map]; now rewrite ?app_nil_r.
Qed.
(** No triangle of a dielectric is lost when the two orientations of a pair are combined. *)
Theorem C93_kept : forall dbu l, exists d, FG_Model.combine_diel (diel_data dbu l) = Some d /\
  forall s t, In s l -> In t (diel_tris dbu s) ->
    (exists ts, dget d (materials s) = Some ts /\ (In t ts \/ fst (materials s) = snd (materials s) /\ In (reversed t) ts)) \/
    (exists ts, dget d (snd (materials s), fst (materials s)) = Some ts /\ In (reversed t) ts).
Proof.
  change materials with diel_key.
  intros dbu l. destruct (FG_Proofs.combine_ok (diel_data dbu l) (diel_wf dbu l)) as (d & C & (W & K1 & K2 & K3 & P & Q)). exists d. split; [exact C|]. intros s t I T.
  assert (U : In t (FG_Spec.under (diel_data dbu l) (diel_key s))).
  { unfold FG_Spec.under. assert (X := C93_collected dbu l (diel_key s)). match goal with |- In t ?a => replace a with (flat_map (diel_tris dbu) (filter (fun s0 => if eq_dec (diel_key s0) (diel_key s) then true else false) l)) end.
    apply in_flat_map. exists s. split; [|exact T]. apply filter_In. split; [exact I|]. now destruct (eq_dec (diel_key s) (diel_key s)). }
  assert (KD : In (diel_key s) (dkeys (diel_data dbu l))).
  { destruct (under_in _ _ _ U) as (ts & G & _). exact (dget_Some_key _ _ G). }
  assert (R : forall t', FG_Spec.turned t' = reversed t') by (intros [[a b] c]; reflexivity).
  set (k := diel_key s) in *. assert (FK : (snd k, fst k) = FG_Spec.flip k) by (now destruct k). rewrite FK.
  destruct (eq_dec k (FG_Spec.flip k)) as [E|N].
  - left. destruct (K2 k KD) as [D|D]; [|rewrite <- E in D]; (destruct (under_in d k (reversed t)) as (ts & G & J); [rewrite (Q k D E), <- R; now apply in_map|]; exists ts; split; [exact G|right; split; [|exact J]; destruct k; cbn in *; congruence]).
  - destruct (K2 k KD) as [D|D].
    + left. destruct (under_in d k t) as (ts & G & J); [|exists ts; split; [exact G|now left]].
      eapply Permutation_in; [symmetry; exact (P k D N)|]. apply in_or_app. now left.
    + right. apply under_in. assert (FF : FG_Spec.flip (FG_Spec.flip k) = k) by (now destruct k). eapply Permutation_in; [symmetry; apply (P _ D); congruence|]. apply in_or_app. right. rewrite FF, <- R. now apply in_map.
Qed.
Lemma coord_near dbu X n : unit_ok dbu -> near_origin n -> coord dbu X n -> Rabs (val X - IZR n * val dbu) <= val dbu / 1000000000.
Proof. intros U N C. destruct (coord_ap dbu X n U N C) as [_ A]. eapply Rle_trans; [exact A|]. destruct U as [_ U]. unfold Rdiv. apply Rmult_le_compat_l; lra. Qed.
Lemma level_ok dbu z p : unit_ok dbu -> p_near p -> at_level dbu z p (h_point dbu z p).
Proof. intros U [A B]. unfold at_level, h_point. cbn [px py pz]. split; [|split; [|reflexivity]]; apply coord_near; try assumption; now apply coord_grid. Qed.
Lemma wall_ok dbu e p : unit_ok dbu -> edge_ok e -> p_near p -> at_place dbu (on_wall e p) (convert_point dbu (v_plane e) p).
Proof.
  intros U E N. destruct (convert_coord dbu e p U E N) as (X & Y & Z). destruct (at_near e (fst p) E (proj1 N)) as [NX NY]. unfold at_place, on_wall.
  assert (QX : at_x e (fst p) = (if dx e =? 0 then fst (p1 e) else Z.sgn (dx e) * fst p)%Z) by (unfold at_x, origin_x; destruct (Z.eqb_spec (dx e) 0) as [->|]; cbn [Z.sgn]; lia).
  assert (QY : at_y e (fst p) = (if dy e =? 0 then snd (p1 e) else Z.sgn (dy e) * fst p)%Z) by (unfold at_y, origin_y; destruct (Z.eqb_spec (dy e) 0) as [->|]; cbn [Z.sgn]; lia).
  rewrite <- QX, <- QY. split; [|split]; apply coord_near; try assumption. exact (proj2 N).
Qed.
Lemma map_placed (P : grid_tri -> tri -> Prop) f ts : Forall tri_ok ts -> (forall g, tri_near g -> P g (f g)) -> Forall2 P ts (map f ts).
Proof. intros F H. induction F as [|g r [_ N] F IH]; constructor; [now apply H|exact IH]. Qed.
(** Every surface gives as many triangles as KLayout made, each with its corners in their places. *)
Theorem C93_placed : forall dbu s, unit_ok dbu -> diel_ok s -> diel_placed dbu s (diel_tris dbu s).
Proof.
  intros dbu [below above z ts|outside inside e ts] U [H F]; cbn [diel_placed diel_tris]; (apply map_placed; [exact F|]); intros [[a b] c] (A & B & C); cbn.
  - split; [|split]; now apply level_ok.
  - split; [|split]; now apply wall_ok.
Qed.
Theorem C93_placed_conductor : forall dbu s, unit_ok dbu -> cond_ok s -> cond_placed dbu s (cond_tris dbu s).
Proof.
  intros dbu [net below z ts|net above z ts|net outside e ts] U [H F]; cbn [cond_placed cond_tris]; (apply map_placed; [exact F|]); intros [[a b] c] (A & B & C); cbn.
  - split; [|split]; now apply level_ok.
  - split; [|split]; now apply level_ok.
  - split; [|split]; now apply wall_ok.
Qed.

(** ** C94 *)
Lemma along_ok along e p : whole_exact along -> edge_ok e -> along p (v_plane e) = ((fst p - origin_x e) * Z.sgn (dx e) + (snd p - origin_y e) * Z.sgn (dy e))%Z.
Proof.
  intros W E. destruct (plane_ok e E) as ([FX X] & [FY Y] & [FDX DX] & [FDY DY]). assert (N := proj1 (proj2 E)). destruct N as [N1 N2]. unfold near_origin in *.
  apply (W p (v_plane e) _ _ _ _ FX FY FDX FDY X Y DX DY); [unfold origin_x; destruct (dx e =? 0)%Z; lia|unfold origin_y; destruct (dy e =? 0)%Z; lia].
Qed.
Lemma edge_near e p : edge_ok e -> on_edge e p -> p_near p.
Proof. intros (_ & [A1 A2] & [B1 B2]) (_ & X & Y). unfold p_near, near_origin in *. lia. Qed.
Lemma along_at along e p : whole_exact along -> edge_ok e -> on_edge e p ->
  near_origin (along p (v_plane e)) /\ at_x e (along p (v_plane e)) = fst p /\ at_y e (along p (v_plane e)) = snd p.
Proof.
  intros W E O. rewrite (along_ok along e p W E). destruct (edge_near e p E O) as [N1 N2]. destruct O as (L & _ & _). unfold near_origin in *.
  destruct (proj1 E) as [[X Y]|[X Y]]; unfold at_x, at_y, origin_x, origin_y; rewrite ?X, ?Y, ?Z.eqb_refl in *; cbn [Z.sgn].
  - destruct (Z.eqb_spec (dy e) 0); [lia|]. assert (fst p = fst (p1 e)) by nia. destruct (Z.sgn_spec (dy e)) as [[_ ->]|[[Q _]|[_ ->]]]; lia.
  - destruct (Z.eqb_spec (dx e) 0); [lia|]. assert (snd p = snd (p1 e)) by nia. destruct (Z.sgn_spec (dx e)) as [[_ ->]|[[Q _]|[_ ->]]]; lia.
Qed.
(** A corner of a vertical surface over a point of the edge is exactly where the horizontal surfaces have the same point. *)
Theorem C94_meets : forall along dbu e p k, whole_exact along -> unit_ok dbu -> edge_ok e -> on_edge e p -> near_origin k ->
  same_place (convert_point dbu (v_plane e) (along p (v_plane e), k)) (h_point dbu (norm2z dbu k) p).
Proof.
  intros along dbu e p k W U E O K. destruct (along_at along e p W E O) as (N & X & Y). destruct (edge_near e p E O) as [N1 N2].
  destruct (convert_coord dbu e (along p (v_plane e), k) U E (conj N K)) as ([_ CX] & [_ CY] & [_ CZ]). cbn [fst snd] in *. rewrite X in CX. rewrite Y in CY.
  unfold same_place, h_point, norm2z. cbn [px py pz]. rewrite CX, CY, CZ. split; [|split]; symmetry; now apply coord_grid.
Qed.
(** The box of an edge covers the edge and the height between the two sides, no more and no less. *)
Theorem C94_box : forall along n d e a b, whole_exact along -> (0 < n)%Z -> short n d -> edge_ok e -> near_origin a -> near_origin b ->
  exists x1 x2, v_surface (lit n d) along (norm2z (lit n d) a) (norm2z (lit n d) b) e = Some ((x1, a), (x2, b)) /\ (x1 < x2)%Z /\
    (forall p, on_edge e p -> (x1 <= along p (v_plane e) <= x2)%Z) /\
    (forall x, (x1 <= x <= x2)%Z -> exists p, on_edge e p /\ along p (v_plane e) = x).
Proof.
  intros along n d e a b W P S E A B. unfold near_origin in A, B. unfold v_surface.
  rewrite (proj1 (FP_Props.C91_meet n d a P S ltac:(lia))), (proj1 (FP_Props.C91_meet n d b P S ltac:(lia))).
  exists (along (p1 e) (v_plane e)), (along (p2 e) (v_plane e)). split; [reflexivity|].
  rewrite !(along_ok along e _ W E). assert (AX := proj1 E). unfold axis_parallel in AX.
  assert (DX : dx e = (fst (p2 e) - fst (p1 e))%Z) by reflexivity. assert (DY : dy e = (snd (p2 e) - snd (p1 e))%Z) by reflexivity.
  destruct AX as [[X Y]|[X Y]].
  - assert (OX : origin_x e = fst (p1 e)) by (unfold origin_x; now rewrite X, Z.eqb_refl). assert (OY : origin_y e = 0%Z) by (unfold origin_y; destruct (Z.eqb_spec (dy e) 0); [lia|reflexivity]).
    assert (SG : (Z.sgn (dy e) = 1 /\ 0 < dy e \/ Z.sgn (dy e) = -1 /\ dy e < 0)%Z) by lia.
    split; [|split].
    + rewrite OX, OY, X. cbn [Z.sgn]. destruct SG as [[-> G]|[-> G]]; lia.
    + intros p (L & Q1 & Q2). rewrite (along_ok along e p W E), OX, OY, X. cbn [Z.sgn]. destruct SG as [[-> G]|[-> G]]; lia.
    + intros x H. exists (fst (p1 e), (Z.sgn (dy e) * x)%Z). rewrite (along_ok along e _ W E). rewrite OX, OY in *. rewrite X in *. cbn [Z.sgn fst snd] in *. unfold on_edge. cbn [fst snd]. rewrite X.
      destruct SG as [[-> G]|[-> G]]; lia.
  - assert (OY : origin_y e = snd (p1 e)) by (unfold origin_y; now rewrite Y, Z.eqb_refl). assert (OX : origin_x e = 0%Z) by (unfold origin_x; destruct (Z.eqb_spec (dx e) 0); [lia|reflexivity]).
    assert (SG : (Z.sgn (dx e) = 1 /\ 0 < dx e \/ Z.sgn (dx e) = -1 /\ dx e < 0)%Z) by lia.
    split; [|split].
    + rewrite OX, OY, Y. cbn [Z.sgn]. destruct SG as [[-> G]|[-> G]]; lia.
    + intros p (L & Q1 & Q2). rewrite (along_ok along e p W E), OX, OY, Y. cbn [Z.sgn]. destruct SG as [[-> G]|[-> G]]; lia.
    + intros x H. exists ((Z.sgn (dx e) * x)%Z, snd (p1 e)). rewrite (along_ok along e _ W E). rewrite OX, OY in *. rewrite Y in *. cbn [Z.sgn fst snd] in *. unfold on_edge. cbn [fst snd]. rewrite Y.
      destruct SG as [[-> G]|[-> G]]; lia.
Qed.
(** Two edges have their surfaces in the same plane if and only if they are on the same line and have the same direction. *)
Theorem C94_plane : forall e e', edge_ok e -> edge_ok e' -> (same_plane (v_plane e) (v_plane e') <-> same_line e e').
Proof.
  intros e e' E E'. destruct (plane_ok e E) as ([_ X] & [_ Y] & [_ DX] & [_ DY]). destruct (plane_ok e' E') as ([_ X'] & [_ Y'] & [_ DX'] & [_ DY']).
  unfold same_plane, same_line. rewrite X, Y, DX, DY, X', Y', DX', DY'. unfold origin_x, origin_y.
  assert (AX := proj1 E). assert (AX' := proj1 E'). unfold axis_parallel in *. split.
  - intros (QX & QY & QDX & QDY). apply eq_IZR in QX, QY, QDX, QDY. split; [exact QDX|]. split; [exact QDY|].
    destruct (Z.eqb_spec (dx e) 0), (Z.eqb_spec (dy e) 0), (Z.eqb_spec (dx e') 0), (Z.eqb_spec (dy e') 0); try lia; nia.
  - intros (QDX & QDY & L). rewrite QDX, QDY.
    destruct (Z.eqb_spec (dx e) 0), (Z.eqb_spec (dy e) 0), (Z.eqb_spec (dx e') 0), (Z.eqb_spec (dy e') 0); try lia.
    + assert (fst (p1 e) = fst (p1 e')) by nia. repeat split; congruence.
    + assert (snd (p1 e) = snd (p1 e')) by nia. repeat split; congruence.
Qed.
(** A point of a plane with x whole is not over the grid if the edge is slanted: the surface over the edge from (0, 0) to (1, 1) ends more than
    a quarter of a unit away from (1, 1), whatever whole numbers KLayout makes of the ends. *)
Definition unit_nm : float := lit 1 1000.
Definition slanted : edge := Edge (0, 0)%Z (1, 1)%Z.
Lemma float_value (x : float) s m e : B2SF x = SpecFloat.S754_finite s m e -> (e <= 0)%Z -> is_finite x = true /\ val x = IZR (cond_Zopp s (Zpos m)) / IZR (2 ^ (- e)).
Proof.
  intros H E. destruct x as [s'|s'| |s' m' e' B]; try discriminate. cbn in H. injection H as -> -> ->. split; [reflexivity|]. unfold B2R, F2R. cbn [Fnum Fexp]. unfold Rdiv. f_equal.
  rewrite <- (Z.opp_involutive e) at 1. rewrite bpow_opp. f_equal. change 2%Z with (radix_val radix2). symmetry. apply IZR_Zpower. lia.
Qed.
Lemma unit_nm_value : is_finite unit_nm = true /\ val unit_nm = 4611686018427388 / 4611686018427387904.
Proof. destruct (float_value unit_nm false 4611686018427388 (-62)) as [F V]; [vm_compute; reflexivity|lia|]. split; [exact F|]. rewrite V. reflexivity. Qed.
Lemma slanted_value : is_finite (dex (v_plane slanted)) = true /\ val (dex (v_plane slanted)) = 6369051672525772 / 9007199254740992.
Proof. destruct (float_value (dex (v_plane slanted)) false 6369051672525772 (-53)) as [F V]; [vm_compute; reflexivity|lia|]. split; [exact F|]. rewrite V. reflexivity. Qed.
Lemma slanted_origin : zero (p0x (v_plane slanted)).
Proof.
  assert (H : B2SF (p0x (v_plane slanted)) = SpecFloat.S754_zero false) by (vm_compute; reflexivity).
  destruct (p0x (v_plane slanted)) as [s|s| |s m e B]; try discriminate. now split.
Qed.
Lemma nm_once : val (fmul (of_int 1) unit_nm) = val unit_nm.
Proof.
  destruct (float_value (fmul (of_int 1) unit_nm) false 4611686018427388 (-62)) as [F V]; [vm_compute; reflexivity|lia|]. rewrite V, (proj2 unit_nm_value). reflexivity.
Qed.
Theorem C94_slanted_refuted : exists e p, p_near (p1 e) /\ p_near (p2 e) /\ on_edge e p /\
  forall q, (Z.abs (fst q) < 2 ^ 31)%Z ->
    Rabs (val (px (convert_point unit_nm (v_plane e) q)) - val (px (h_point unit_nm (norm2z unit_nm (snd q)) p))) > val unit_nm / 4.
Proof.
  exists slanted, (1, 1)%Z. unfold p_near, near_origin, on_edge. cbn [slanted p1 p2 fst snd dx dy]. split; [lia|]. split; [lia|]. split; [unfold dx, dy; cbn [slanted p1 p2 fst snd]; lia|].
  intros [x k] B. cbn [fst snd] in *. unfold convert_point, h_point. cbn [px fst snd].
  destruct unit_nm_value as [FD D]. destruct slanted_value as [FE E]. rewrite nm_once.
  destruct (of_int_ok x ltac:(lia)) as [FX VX]. assert (BX : Rabs (IZR x) <= 2147483648) by (rewrite abs_int; apply IZR_le; lia).
  assert (A1 : ap (dex (v_plane slanted)) (val (dex (v_plane slanted))) 0) by (split; [exact FE|rewrite Rminus_eq_0, Rabs_R0; lra]).
  assert (A2 : ap (of_int x) (IZR x) 0) by (split; [exact FX|rewrite VX, Rminus_eq_0, Rabs_R0; lra]).
  assert (A3 : ap unit_nm (val unit_nm) 0) by (split; [exact FD|rewrite Rminus_eq_0, Rabs_R0; lra]).
  assert (EB : Rabs (val (dex (v_plane slanted))) <= 1) by (rewrite E; apply abs_le; lra). assert (DB : Rabs (val unit_nm) <= / 100) by (rewrite D; apply abs_le; lra).
  assert (UV : u <= / 1000000000000000) by (unfold u; lra). assert (ET := Rle_trans _ _ _ eta_tiny ten_100).
  assert (UP := u_pos). assert (EP := eta_pos).
  assert (A4 := ap_mul _ _ _ _ _ _ _ _ A1 A2 EB BX ltac:(lra)). set (M := fmul (dex (v_plane slanted)) (of_int x)) in *.
  assert (A5 : ap M (val (dex (v_plane slanted)) * IZR x) (/ 100000)) by (eapply ap_le; [|exact A4]; lra). clear A4.
  assert (XB : Rabs (val (dex (v_plane slanted)) * IZR x) <= 2147483648) by (rewrite Rabs_mult, <- (Rmult_1_l 2147483648); apply Rmult_le_compat; try apply Rabs_pos; assumption).
  assert (MB : Rabs (val M) <= 10 ^ 200).
  { apply big200. destruct A5 as [_ A5]. replace (val M) with ((val M - val (dex (v_plane slanted)) * IZR x) + val (dex (v_plane slanted)) * IZR x) by ring. eapply Rle_trans; [apply Rabs_triang|lra]. }
  destruct (add_zero_l _ M slanted_origin (proj1 A5) MB) as [F V].
  assert (A6 : ap (fadd (p0x (v_plane slanted)) M) (val (dex (v_plane slanted)) * IZR x) (/ 100000)) by (split; [exact F|rewrite V; exact (proj2 A5)]).
  assert (A7 := ap_mul _ _ _ _ _ _ _ _ A6 A3 XB DB ltac:(lra)). destruct A7 as [_ A7]. set (W := val (fmul (fadd (p0x (v_plane slanted)) M) unit_nm)) in *.
  assert (A8 : Rabs (W - val (dex (v_plane slanted)) * IZR x * val unit_nm) <= / 1000000) by (eapply Rle_trans; [exact A7|lra]). clear A7 A6 A5.
  rewrite E, D in *. apply abs_le in A8. apply Rlt_gt. destruct (Z.le_gt_cases x 1) as [L|L].
  - assert (X1 : IZR x <= 1) by (apply IZR_le; lia). rewrite <- Rabs_Ropp. eapply Rlt_le_trans; [|apply Rle_abs]. lra.
  - assert (X2 : 2 <= IZR x) by (apply IZR_le; lia). eapply Rlt_le_trans; [|apply Rle_abs]. lra.
Qed.

(** ** the hypotheses are met, and some values *)
Definition product (x : float) : float := fmul x x.
Example C93_squares : squares product.
Proof.
  intros x F [Z|[A B]]; unfold product, half_ulp.
  - destruct (mul_ok x x F F) as [G V]; [rewrite Z, Rmult_0_l, Rabs_R0; unfold huge; lra|]. split; [exact G|]. rewrite V, Z, Rmult_0_l, fl_0, Rminus_0_r, Rabs_R0. lra.
  - assert (P := ten_pos 60). assert (Q : 0 < / 10 ^ 60) by (apply Rinv_0_lt_compat; exact P).
    assert (S : Rabs (val x * val x) = val x * val x) by (apply Rabs_pos_eq; nra). assert (SA : val x * val x = Rabs (val x) * Rabs (val x)) by (rewrite <- Rabs_mult; now rewrite S).
    assert (L : / 10 ^ 120 <= val x * val x).
    { rewrite SA. replace 120%nat with (60 + 60)%nat by reflexivity. rewrite pow_add, Rinv_mult. apply Rmult_le_compat; lra. }
    assert (H : val x * val x <= 10 ^ 120).
    { rewrite SA. replace 120%nat with (60 + 60)%nat by reflexivity. rewrite pow_add. apply Rmult_le_compat; try apply Rabs_pos; lra. }
    destruct (mul_fits x x F F) as [G V]; [rewrite S; eapply Rle_trans; [exact H|apply ten_le; lia]|]. split; [exact G|]. rewrite V.
    eapply Rle_trans; [apply fl_e|]. rewrite S.
    assert (E : eta <= u * (val x * val x)).
    { eapply Rle_trans; [|apply Rmult_le_compat_l; [left; apply u_pos|exact L]]. unfold eta. replace 300%nat with (180 + 120)%nat by reflexivity. rewrite pow_add, Rinv_mult.
      apply Rmult_le_compat_r; [left; apply Rinv_0_lt_compat, ten_pos|]. eapply Rle_trans; [apply (ten_inv_le 16); lia|]. unfold u. simpl. lra. }
    unfold u in *. lra.
Qed.
Definition whole (x : float) : Z := match floor x with Some n => n | None => 0 end.
Definition sprod (p : grid_point) (v : plane) : Z := ((fst p - whole (p0x v)) * whole (dex v) + (snd p - whole (p0y v)) * whole (dey v))%Z.
Example C94_whole : whole_exact sprod.
Proof.
  intros p v a b c d F1 F2 F3 F4 A B C D _ _. unfold sprod, whole. now rewrite !floor_ok, A, B, C, D, !Zfloor_IZR by assumption.
Qed.
Definition corner_tri : grid_tri := ((0, 0), (0, 1000), (1000, 0))%Z.
Definition right_edge : edge := Edge (2000, 3000)%Z (2000, 500)%Z.
Definition some_surfaces : list diel_surface :=
  [HDiel (Some "fox"%string) (Some "psg"%string) (of_int 1) [corner_tri]; VDiel (Some "psg"%string) (Some "fox"%string) right_edge [corner_tri]].
Example C93_meant : Forall diel_ok some_surfaces.
Proof.
  assert (T : tri_ok corner_tri) by (unfold tri_ok, clockwise, tri_near, p_near, near_origin; cbn; lia).
  assert (O := of_int_ok 1 ltac:(lia)). constructor; [|constructor; [|constructor]].
  - split; [split; [exact (proj1 O)|rewrite (proj2 O); apply abs_le; lra]|]. constructor; [exact T|constructor].
  - split; [|constructor; [exact T|constructor]]. unfold edge_ok, axis_parallel, p_near, near_origin, dx, dy. cbn. lia.
Qed.
Definition place (p : point) : option Z * option Z * option Z := (floor (fmul (px p) (of_int 1000)), floor (fmul (py p) (of_int 1000)), floor (fmul (pz p) (of_int 1000))).
(** in thousandths of a micrometre: the surface 1 um above the substrate faces down, the wall at x = 2 um faces x = 3 um *)
Example C93_values :
  option_map place (outside_reference_point product (h_tri unit_nm (of_int 1) corner_tri)) = Some (Some 0, Some 0, Some 0)%Z /\
  option_map place (outside_reference_point product (v_tri unit_nm (v_plane right_edge) corner_tri)) = Some (Some 3000, Some 0, Some 0)%Z /\
  option_map place (outside_reference_point product (reversed (v_tri unit_nm (v_plane right_edge) corner_tri))) = Some (Some 1000, Some (-1000), Some 0)%Z.
Proof. vm_compute. repeat split. Qed.
Example C94_values : v_surface unit_nm sprod (norm2z unit_nm 100) (norm2z unit_nm 250) right_edge = Some ((-3000, 100), (-500, 250))%Z.
Proof. vm_compute. reflexivity. Qed.

Print Assumptions C93_dielectric.
Print Assumptions C93_conductor.
Print Assumptions C93_collected.
Print Assumptions C93_collected_conductor.
Print Assumptions C93_kept.
Print Assumptions C93_placed.
Print Assumptions C93_placed_conductor.
Print Assumptions C94_meets.
Print Assumptions C94_box.
Print Assumptions C94_plane.
Print Assumptions C94_slanted_refuted.
