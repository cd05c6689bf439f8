(** From the run of the builder to the panels at a point, for C105. *)
From Coq Require Import ZArith Reals String List Permutation Lra Lia.
From Flocq Require Import Core.Core IEEE754.BinarySingleNaN.
From Verif Require Import PyBase PyLib FP_Model FP_Spec TG_Model TG_Spec ST_Model ST_Spec GF_Spec GF_Model VX_Model VX_Spec VX_Geo VX_Walls VX_Proofs VX_Views VX_Points.
From Verif Require SW_Model SW_Spec SW_Run SW_Sweep SW_Props VX_Sweep GF_Props RN_All.
Import ListNotations.
Local Close Scope Qc_scope.
Local Open Scope list_scope.
Local Open Scope R_scope.

Lemma swap_middle {A} (a b c d : list A) : Permutation ((a ++ c) ++ b ++ d) (a ++ b ++ c ++ d).
Proof. rewrite <- app_assoc. apply Permutation_app_head. rewrite !app_assoc. apply Permutation_app_tail, Permutation_app_comm. Qed.
Lemma greatest j (l : list Z) a : In a l -> (a <= j)%Z -> exists m, In m l /\ (m <= j)%Z /\ forall y, In y l -> (y <= j)%Z -> (y <= m)%Z.
Proof.
  revert a. induction l as [|x l IH]; intros a I H; [destruct I|].
  destruct (Z_le_gt_dec x j) as [X|X].
  - destruct (existsb (fun y => y <=? j)%Z l) eqn:E.
    + apply existsb_exists in E. destruct E as (y & Y & Yj). apply Z.leb_le in Yj. destruct (IH y Y Yj) as (m & M1 & M2 & M3). destruct (Z_le_gt_dec x m).
      * exists m. split; [now right|]. split; [exact M2|]. intros w [<-|Hw] Hj; [lia|exact (M3 w Hw Hj)].
      * exists x. split; [now left|]. split; [exact X|]. intros w [<-|Hw] Hj; [lia|]. specialize (M3 w Hw Hj). lia.
    + exists x. split; [now left|]. split; [exact X|]. intros w [<-|Hw] Hj; [lia|]. exfalso. apply Bool.not_true_iff_false in E. apply E, existsb_exists. exists w. split; [exact Hw|now apply Z.leb_le].
  - destruct I as [<-|I]; [lia|]. destruct (IH a I H) as (m & M1 & M2 & M3). exists m. split; [now right|]. split; [exact M2|]. intros w [<-|Hw] Hj; [lia|exact (M3 w Hw Hj)].
Qed.
Lemma least j (l : list Z) a : In a l -> (j < a)%Z -> exists m, In m l /\ (j < m)%Z /\ forall y, In y l -> (j < y)%Z -> (m <= y)%Z.
Proof.
  intros I H. destruct (greatest (- j - 1) (map Z.opp l) (- a)) as (m & M1 & M2 & M3); [apply in_map, I|lia|]. apply in_map_iff in M1. destruct M1 as (m' & <- & M1).
  exists m'. split; [exact M1|]. split; [lia|]. intros y Y Hy. specialize (M3 (- y)%Z (in_map _ _ _ Y)). lia.
Qed.
Section Main.
Variables (n d : Z) (k_void : Qc) (delaunay : list cell -> list grid_tri) (along : grid_point -> plane -> Z) (square : float -> float) (limit : nat).
Variables (prefix : string) (hash : string -> string) (cs : list call) (ls : list layer) (old new : files).
Hypothesis G : grid_ok n d.
Hypothesis TR : triangulates delaunay.
Hypothesis W : whole_exact along.
Hypothesis SQ : squares square.
Hypothesis ME : Forall2 (means n d) cs ls.
Hypothesis NE : Forall layer_near ls.
Hypothesis NA : Forall layer_named ls.
Hypothesis NP : unbroken prefix.
Hypothesis NH : forall x, unbroken (hash x).
Hypothesis Two : (2 <= List.length (everyone ls))%nat.
Hypothesis Run : fastercap_files (lit n d) delaunay along square limit prefix k_void hash cs old = Some new.
Notation dbu := (lit n d).
Notation u := (IZR n / IZR d).
Notation mats := (values ls).
Notation us := (map as_call ls).
Notation pieces := (all_pieces us).
Notation surface := (@SW_Model.surface cell piece).
Lemma Two' : (2 <= List.length (SW_Spec.priority us))%nat. Proof. rewrite priority_as. exact Two. Qed.

(** ** What a sweep gives *)
Section Sweep.
Variables (b : @SW_Model.builder cell) (g : @SW_Model.gen cell piece).
Hypothesis B : SW_Model.build 1%Qc us = Some b.
Hypothesis Ge : SW_Model.generate piece_left piece_right pieces b = Some g.
Notation L := (SW_Model.surfaces g).
Lemma described s : In s L -> VX_Sweep.described_surface pieces 1%Qc us s.
Proof. exact (VX_Sweep.all_described piece_left piece_right pieces 1%Qc us b g (NoDup_nodup _ _) B Two' Ge s). Qed.
Lemma near s : In s L -> surface_near s.
Proof.
  intros I. apply described in I. destruct s; cbn in *; try exact Logic.I; destruct I as (Lv & _ & F); (split; [exact (level_near ls NE _ Lv)|]);
    rewrite Forall_forall in F; apply Forall_forall; intros p J; exact (shape_near ls NE _ (F p J)).
Qed.
Lemma step_ok z zz : VX_Sweep.steps 1%Qc us z zz -> near_origin z /\ near_origin zz /\ (z < zz)%Z.
Proof. intros (A & A' & Lt & _). apply (level_near ls NE) in A. apply (level_near ls NE) in A'. unfold near_origin. lia. Qed.
Lemma cond_items : Forall item_ok (flat_map v_cond L).
Proof.
  apply Forall_forall. intros v I. apply in_flat_map in I. destruct I as (s & I & J). apply described in I. destruct s; cbn [v_cond] in J; try (destruct J; fail). destruct J as [<-|[]].
  destruct I as (S & _ & P). destruct (step_ok _ _ S) as (X & Y & Z). split; [exact (pieces_near ls NE _ P)|auto].
Qed.
Lemma diel_items : Forall item_ok (flat_map v_diel L).
Proof.
  apply Forall_forall. intros v I. apply in_flat_map in I. destruct I as (s & I & J). apply described in I. destruct s; cbn [v_diel] in J; try (destruct J; fail). destruct J as [<-|[]].
  destruct I as (S & _ & P). destruct (step_ok _ _ S) as (X & Y & Z). split; [exact (pieces_near ls NE _ P)|auto].
Qed.
(** ** Cells of entries *)
Lemma pos_near e : piece_near (fst e) -> (-4194304 <= pos e < 4194304)%Z.
Proof.
  intros N. destruct e as [p dr]. specialize (N true). destruct N as (_ & N1 & N2). unfold p_near, near_origin in *. unfold pos. destruct p, dr; cbn in *; lia.
Qed.
Lemma entry_near_cells {K} {EK : EqDec K} (l : list (K * (piece * bool) * Z * Z)) es x : Forall item_ok l -> known l es ->
  (forall v, In v l -> let '(_, _, z, zz) := v in (Z.abs z < 1000000 /\ Z.abs zz < 1000000)%Z) -> In x es -> Forall cell_near (snd x).
Proof.
  intros O Kn H I. apply Forall_forall. intros c J. apply (kn_cells _ _ Kn x c I) in J. destruct J as ([[[k e] z] zz] & V & _ & [P Q]). specialize (H _ V). cbn in H.
  rewrite Forall_forall in O. destruct (O _ V) as (N & _). apply pos_near in N. split; lia.
Qed.
Lemma cond_heights v : In v (flat_map v_cond L) -> let '(_, _, z, zz) := v in (Z.abs z < 1000000 /\ Z.abs zz < 1000000)%Z.
Proof.
  intros I. apply in_flat_map in I. destruct I as (s & I & J). apply described in I. destruct s; cbn [v_cond] in J; try (destruct J; fail). destruct J as [<-|[]].
  destruct I as ((A & A' & _) & _). split; apply (level_near ls NE); assumption.
Qed.
Lemma diel_heights v : In v (flat_map v_diel L) -> let '(_, _, z, zz) := v in (Z.abs z < 1000000 /\ Z.abs zz < 1000000)%Z.
Proof.
  intros I. apply in_flat_map in I. destruct I as (s & I & J). apply described in I. destruct s; cbn [v_diel] in J; try (destruct J; fail). destruct J as [<-|[]].
  destruct I as ((A & A' & _) & _). split; apply (level_near ls NE); assumption.
Qed.
Section Kept.
Variables (ec : entries (string * option string)) (ed : entries (option string * option string)).
Hypothesis KC : known (flat_map v_cond L) ec.
Hypothesis KD : known (flat_map v_diel L) ed.
Notation cl := (flat_map (h_cond dbu delaunay) L ++ map (vc delaunay) ec).
Notation dl := (flat_map (h_diel dbu delaunay) L ++ map (vd delaunay) ed).
Lemma cells_c e : In e ec -> Forall cell_near (snd e). Proof. apply (entry_near_cells _ _ _ cond_items KC cond_heights). Qed.
Lemma cells_d e : In e ed -> Forall cell_near (snd e). Proof. apply (entry_near_cells _ _ _ diel_items KD diel_heights). Qed.
Lemma delaunay_ok r : Forall cell_near r -> Forall tri_ok (delaunay r). Proof. intros N. apply (TR r N). Qed.
(** *** where the surfaces come from *)
Lemma cond_from c : In c cl -> cond_ok c /\ VX_Sweep.label_ok (nets ls) (declared ls) (SW_Spec.LBottom (net_of c) (snd (net_and_outside c))).
Proof.
  intros I. apply in_app_or in I. destruct I as [I|I].
  - apply in_flat_map in I. destruct I as (s & I & J). pose proof (near s I) as N. apply described in I.
    destruct s as [|z net m r|z net m r| |]; cbn [h_cond] in J; try (destruct J; fail); destruct J as [<-|[]]; destruct N as [NZ NR]; destruct I as (_ & O & _); rewrite nets_as, materials_as in O.
    + split; [|exact O]. split; [exact (height_fine n d G z NZ)|exact (delaunay_ok r NR)].
    + split; [|exact O]. split; [exact (height_fine n d G z NZ)|exact (delaunay_ok r NR)].
  - apply in_map_iff in I. destruct I as (e & <- & I). pose proof (cells_c e I) as N. pose proof (kn_near _ _ KC e I) as P. destruct (kn_from _ _ KC e I) as (v & V & E).
    destruct e as [[k e] r]. cbn [snd] in N. split.
    + split; [exact (P (snd e))|exact (delaunay_ok r N)] || (split; [destruct e as [p dr]; exact (P dr)|exact (delaunay_ok r N)]).
    + apply in_flat_map in V. destruct V as (s & V & J). apply described in V. destruct s as [| | | |z zz net m e']; cbn [v_cond] in J; try (destruct J; fail). destruct J as [<-|[]].
      pose proof (f_equal fst E) as E'. cbn in E'. subst k. destruct V as (_ & O & _). rewrite nets_as, materials_as in O. exact O.
Qed.
Lemma diel_from c : In c dl -> diel_ok c /\ VX_Sweep.label_ok (nets ls) (declared ls) (SW_Spec.LDiel (fst (materials c)) (snd (materials c))).
Proof.
  intros I. apply in_app_or in I. destruct I as [I|I].
  - apply in_flat_map in I. destruct I as (s & I & J). pose proof (near s I) as N. apply described in I.
    destruct s as [z m m' r| | | |]; cbn [h_diel] in J; try (destruct J; fail); destruct J as [<-|[]]; destruct N as [NZ NR]; destruct I as (_ & O & _); rewrite nets_as, materials_as in O.
    split; [|exact O]. split; [exact (height_fine n d G z NZ)|exact (delaunay_ok r NR)].
  - apply in_map_iff in I. destruct I as (e & <- & I). pose proof (cells_d e I) as N. pose proof (kn_near _ _ KD e I) as P. destruct (kn_from _ _ KD e I) as (v & V & E).
    destruct e as [[k e] r]. cbn [snd] in N. split.
    + split; [destruct e as [p dr]; exact (P dr)|exact (delaunay_ok r N)].
    + apply in_flat_map in V. destruct V as (s & V & J). apply described in V. destruct s as [| | |z zz o i e'|]; cbn [v_diel] in J; try (destruct J; fail). destruct J as [<-|[]].
      pose proof (f_equal fst E) as E'. cbn in E'. subst k. destruct V as (_ & O & _). rewrite nets_as, materials_as in O. exact O.
Qed.
(** *** names *)
Lemma firsts_In {A} {E : EqDec A} : forall (l seen : list A) x, In x (SW_Spec.firsts seen l) -> In x l.
Proof.
  induction l as [|y l IH]; intros seen x I; [destruct I|]. cbn in I. destruct (existsb (eqb y) seen); [right; exact (IH _ _ I)|]. destruct I as [<-|I]; [now left|right; exact (IH _ _ I)].
Qed.
Lemma net_named x : In x (nets ls) -> x <> ""%string /\ unbroken x.
Proof.
  intros I. apply firsts_In, in_flat_map in I. destruct I as (l & I & J). rewrite Forall_forall in NA. apply NA in I. destruct l as [|[y|] r z z']; try (destruct J; fail). destruct J as [<-|[]]. exact I.
Qed.
Lemma mat_named x : In x (declared ls) -> unbroken x.
Proof.
  intros I. apply firsts_In, in_flat_map in I. destruct I as (l & I & J). rewrite Forall_forall in NA. apply NA in I. destruct l as [m k|]; try (destruct J; fail). destruct J as [<-|[]]. exact I.
Qed.
Lemma all_names : names_ok prefix hash dl cl.
Proof.
  split; [exact NP|]. split; [exact NH|]. split; [|split].
  - intros s m I H. destruct (diel_from s I) as [_ (_ & A & A')]. apply mat_named. destruct H as [H|H]; [exact (A m H)|exact (A' m H)].
  - intros s I. destruct (cond_from s I) as [_ (A & _)]. exact (net_named _ A).
  - intros s m I H. destruct (cond_from s I) as [_ (_ & A)]. apply mat_named, A, H.
Qed.
Hypothesis Input : fastercap_input square limit dbu prefix k_void mats hash dl cl old = Some new.
Lemma layout_read : exists rcs rds, reads new (prefix ++ ".lst") rcs rds /\ whole_layout u k_void mats dl cl rcs rds.
Proof.
  apply (GF_Props.C104_read n d square limit prefix k_void mats hash dl cl G SQ) with (old := old).
  - apply Forall_forall. intros s I. apply (cond_from s I).
  - apply Forall_forall. intros s I. apply (diel_from s I).
  - apply Forall_forall. intros s I. destruct (diel_from s I) as [_ (A & _)]. exact A.
  - exact all_names.
  - exact Input.
Qed.

(** ** All surfaces at a point *)
Lemma at_point q (f : surface -> list wanted) (gc : _ -> list wanted) (gd : _ -> list wanted) rcs rds :
  whole_layout u k_void mats dl cl rcs rds -> off_borders q rcs rds ->
  (forall s c, In s L -> In c (h_cond dbu delaunay s) -> wants_c u k_void mats q c (f s)) -> (forall s c, In s L -> In c (h_diel dbu delaunay s) -> wants_d u k_void mats q c (f s)) ->
  (forall e, In e ec -> wants_c u k_void mats q (vc delaunay e) (gc e)) -> (forall e, In e ed -> wants_d u k_void mats q (vd delaunay e) (gd e)) ->
  (forall s, match s with SW_Model.VDiel _ _ _ _ _ | SW_Model.VCond _ _ _ _ _ => f s = [] | _ => True end) ->
  seen_at k_void mats q rcs rds (flat_map f L ++ flat_map gc ec ++ flat_map gd ed).
Proof.
  intros WL O HC HD EC ED V.
  set (plc := flat_map (fun s => map (fun c => (c, f s)) (h_cond dbu delaunay s)) L ++ map (fun e => (vc delaunay e, gc e)) ec).
  set (pld := flat_map (fun s => map (fun c => (c, f s)) (h_diel dbu delaunay s)) L ++ map (fun e => (vd delaunay e, gd e)) ed).
  assert (X := collect u k_void mats q dl cl rcs rds plc pld WL O).
  assert (FM : forall A Bb (h : surface -> list A) (k : surface -> list Bb) l, map fst (flat_map (fun s => map (fun c => (c, k s)) (h s)) l) = flat_map h l).
  { intros A Bb h k l. induction l as [|s l IH]; cbn; [reflexivity|]. rewrite map_app, IH, map_map. cbn. now rewrite map_id. }
  assert (FS : forall A (h : surface -> list A) l, flat_map snd (flat_map (fun s => map (fun c => (c, f s)) (h s)) l) = flat_map (fun s => flat_map (fun _ => f s) (h s)) l).
  { intros A h l. induction l as [|s l IH]; cbn; [reflexivity|]. rewrite flat_map_app, IH. f_equal. induction (h s); cbn; congruence. }
  assert (FE : forall A B' C (a : A -> B') (h : A -> list C) l, flat_map snd (map (fun e => (a e, h e)) l) = flat_map h l).
  { intros A B' C a h l. induction l; cbn; congruence. }
  unfold plc, pld in X. rewrite !map_app, !FM, !map_map, !flat_map_app, !FS, !FE in X. cbn [fst] in X.
  refine (finds_perm _ _ _ _ _ _ (X eq_refl eq_refl _ _)).
  - rewrite swap_middle.
    transitivity (flat_map (fun s => flat_map (fun _ => f s) (h_cond dbu delaunay s)) L ++ flat_map (fun s => flat_map (fun _ => f s) (h_diel dbu delaunay s)) L ++ flat_map gc ec ++ flat_map gd ed); [reflexivity|].
    rewrite app_assoc. apply Permutation_app_tail. rewrite <- SW_Sweep.flat_map_pair.
    match goal with |- Permutation ?a ?b' => replace a with b'; [reflexivity|] end. apply flat_map_ext. intros s. specialize (V s). destruct s; cbn in *; rewrite ?app_nil_r; auto.
  - intros s ws I. apply in_app_or in I. destruct I as [I|I].
    + apply in_flat_map in I. destruct I as (sf & I & J). apply in_map_iff in J. destruct J as (c & Q & J). injection Q as <- <-. exact (HC sf c I J).
    + apply in_map_iff in I. destruct I as (e & Q & I). injection Q as <- <-. exact (EC e I).
  - intros s ws I. apply in_app_or in I. destruct I as [I|I].
    + apply in_flat_map in I. destruct I as (sf & I & J). apply in_map_iff in J. destruct J as (c & Q & J). injection Q as <- <-. exact (HD sf c I J).
    + apply in_map_iff in I. destruct I as (e & Q & I). injection Q as <- <-. exact (ED e I).
Qed.
(** ** Points of levels *)
Variables (rcs : list conductor) (rds : list interface).
Hypothesis WL : whole_layout u k_void mats dl cl rcs rds.
Lemma expected_below_above below above : map wanted_h (SW_Spec.expected_h below above) = below_above below above.
Proof.
  unfold SW_Spec.expected_h, below_above, between_owners.
  assert (U : opposite down = up) by (unfold opposite, down, up; f_equal; [f_equal|]; lra).
  destruct below as [[x|x]|], above as [[y|y]|]; rewrite ?U;
    repeat match goal with |- context [eqb ?a ?b'] => let E := fresh in destruct (eqb a b') eqn:E; [apply eqb_eq in E|apply eqb_neq in E] end; try reflexivity; congruence.
Qed.
Lemma level_labels x y j s t : 0 < s < 1 -> 0 < t < 1 -> let q := ((IZR x + s) * u, (IZR y + t) * u, IZR j * u) in off_borders q rcs rds ->
  seen_at k_void mats q rcs rds (map wanted_h (SW_Spec.horizontals j (x, y) L)).
Proof.
  intros S T q O.
  assert (X := at_point _ (fun sf => map wanted_h (SW_Spec.hlabel_at j (x, y) sf)) (fun _ => []) (fun _ => []) rcs rds WL O).
  rewrite !(flat_nil (fun _ => [])), !app_nil_r in X by reflexivity.
  unfold SW_Spec.horizontals. match type of X with _ -> _ -> _ -> _ -> _ -> seen_at _ _ _ _ _ ?a => match goal with |- seen_at _ _ _ _ _ ?c => replace c with a end end.
  - apply X.
    + intros sf c I. exact (level_c n d k_void mats delaunay G TR x y j s t S T sf c (near sf I)).
    + intros sf c I. exact (level_d n d k_void mats delaunay G TR x y j s t S T sf c (near sf I)).
    + intros e I. apply (between_c n d k_void mats delaunay G _ x y s t e); [reflexivity|reflexivity|exact S|exact T].
    + intros e I. apply (between_d n d k_void mats delaunay G _ x y s t e); [reflexivity|reflexivity|exact S|exact T].
    + intros [| | | |]; reflexivity || exact Logic.I.
  - generalize L. intros l. induction l as [|sf l IH]; cbn; [reflexivity|]. rewrite map_app. f_equal. exact IH.
Qed.
Lemma owners_at j x y : map wanted_h (SW_Spec.expected_h (SW_Spec.owner_below 1%Qc us j (x, y)) (SW_Spec.owner_above 1%Qc us j (x, y))) = below_above (owner ls (x, y, (j - 1)%Z)) (owner ls (x, y, j)).
Proof. exact (eq_trans (f_equal2 (fun a a' => map wanted_h (SW_Spec.expected_h a a')) (owner_as_below ls j (x, y)) (owner_as ls j (x, y))) (expected_below_above _ _)). Qed.
Lemma seen_level q below above : level_point u q below above -> off_borders q rcs rds -> (owner ls below = owner ls above \/ forall who, ~ hidden ls below above who) ->
  seen_at k_void mats q rcs rds (below_above (owner ls below) (owner ls above)).
Proof.
  intros Q O Hd. destruct Q as [x y j s t S T]. rewrite <- owners_at.
  rewrite <- (SW_Props.C31_horizontal_partial cell piece _ _ piece_left piece_right pieces 1%Qc us b g (NoDup_nodup _ _) B Two' Ge j (x, y)).
  - exact (level_labels x y j s t S T O).
  - rewrite owner_as, owner_as_below. destruct Hd as [Hd|Hd]; [left; exact Hd|right]. intros k I P P'. rewrite priority_as in I. rewrite present_as_below in P. rewrite present_as in P'.
    destruct (eq_dec (owner ls (x, y, (j - 1)%Z)) (Some k)) as [E|E]; [now left|]. destruct (eq_dec (owner ls (x, y, j)) (Some k)) as [E'|E']; [now right|].
    exfalso. apply (Hd k). repeat split; assumption.
Qed.
Lemma picks_in {A} (P : A -> Prop) l m x : picks P l m -> In x m -> In x l /\ P x.
Proof. induction 1 as [|y l m Y H IH|y l m Y H IH]; intros I; [destruct I| |]; [destruct I as [<-|I]; [split; [now left|exact Y]|]|]; destruct (IH I); split; auto; now right. Qed.
Lemma seen_in q ws w : seen_at k_void mats q rcs rds ws -> In w ws -> exists x, In x (views rcs rds) /\ inside q (facet_of x) /\ shows k_void mats w x.
Proof.
  intros (f & f' & P & Q & F) I. assert (X : exists x, In x f' /\ shows k_void mats w x).
  { clear - F I. induction F as [|w' x ws f' H F IH]; [destruct I|]. destruct I as [<-|I]; [exists x; split; [now left|exact H]|]. destruct (IH I) as (x' & J & Y). exists x'. split; [now right|exact Y]. }
  destruct X as (x & J & H). apply (Permutation_in _ (Permutation_sym Q)) in J. destruct (picks_in _ _ _ _ P J) as [K K']. exists x. auto.
Qed.
Lemma level_found q below above w : level_point u q below above -> off_borders q rcs rds -> ~ (exists m m', owner ls below = Some (Net m) /\ owner ls above = Some (Net m')) ->
  In w (below_above (owner ls below) (owner ls above)) -> exists x, In x (views rcs rds) /\ inside q (facet_of x) /\ shows k_void mats w x.
Proof.
  intros Q O Ne I. destruct Q as [x y j s t S T]. rewrite <- owners_at in I. apply (seen_in _ _ w (level_labels x y j s t S T O)). apply in_map_iff in I. destruct I as (lab & <- & I). apply in_map.
  apply (SW_Props.C31_no_surface_missing cell piece _ _ piece_left piece_right pieces 1%Qc us b g (NoDup_nodup _ _) B Two' Ge j (x, y) lab); [|exact I].
  intros (m & m' & E & E'). apply Ne. exists m, m'. rewrite owner_as_below in E. rewrite owner_as in E'. auto.
Qed.
(** ** Points inside cubes *)
Lemma seen_inner q : inner_point u q -> off_borders q rcs rds -> seen_at k_void mats q rcs rds [].
Proof.
  intros (x & y & j & s & t & r & S & T & Rr & ->) O.
  assert (X := at_point _ (fun _ => []) (fun _ => []) (fun _ => []) rcs rds WL O). rewrite !(flat_nil (fun _ => [])) in X by reflexivity. apply X.
  - intros sf c I. apply (above_c n d k_void mats delaunay G _ j r sf c); [reflexivity|exact Rr|exact (near sf I)].
  - intros sf c I. apply (above_d n d k_void mats delaunay G _ j r sf c); [reflexivity|exact Rr|exact (near sf I)].
  - intros e I. apply (between_c n d k_void mats delaunay G _ x y s t e); [reflexivity|reflexivity|exact S|exact T].
  - intros e I. apply (between_d n d k_void mats delaunay G _ x y s t e); [reflexivity|reflexivity|exact S|exact T].
  - intros [| | | |]; reflexivity || exact Logic.I.
Qed.
(** ** Points of walls *)
Section Wall.
Variables (p : piece) (j : Z).
Lemma same_piece dr e : lid e = lid (p, dr) -> pos e = pos (p, dr) -> e = (p, dr).
Proof.
  intros E P. pose proof (f_equal fst E) as E1. pose proof (f_equal snd E) as E2. pose proof (f_equal fst E1) as E3. pose proof (f_equal snd E1) as E4. clear E E1.
  destruct e as [p' dr']. unfold pos in P. destruct p, p'; cbn in *; try discriminate; subst; destruct dr; f_equal; f_equal; lia.
Qed.
Lemma seen_c_mem lab : In lab (flat_map (seen_c p j) ec) <-> exists z zz net o dr, lab = SW_Spec.LVCond net o dr /\ In (SW_Model.VCond z zz net o (p, dr)) L /\ (z <= j < zz)%Z.
Proof.
  rewrite in_flat_map. split.
  - intros (x & I & J). destruct x as [[k e] r]. cbn [seen_c] in J. destruct (on_line p e) eqn:OL; [|destruct J]. cbn [andb] in J. destruct (existsb (eqb (pos (p, snd e), j)) r) eqn:X; [|destruct J]. destruct J as [<-|[]].
    apply existsb_in in X. apply on_line_lid in OL. apply (kn_cells _ _ KC _ (pos (p, snd e), j) I) in X. destruct X as (v & V & E & IV). apply in_flat_map in V. destruct V as (s & V & Y).
    destruct s as [| | | |z zz net o e']; cbn [v_cond] in Y; try (destruct Y; fail). destruct Y as [<-|[]]. destruct IV as [P1 P2]. cbn [fst snd] in P1, P2.
    pose proof (f_equal fst E) as E1. pose proof (f_equal snd E) as E2. cbn [vkey ekey fst snd] in E1, E2. rewrite OL in E2. rewrite <- E1. symmetry in P1. rewrite (same_piece (snd e) e' E2 P1) in V.
    exists z, zz, net, o, (snd e). auto.
  - intros (z & zz & net & o & dr & -> & V & H).
    assert (I : In ((net, o), (p, dr), z, zz) (flat_map v_cond L)) by (apply in_flat_map; exists (SW_Model.VCond z zz net o (p, dr)); split; [exact V|now left]).
    destruct (kn_all _ _ KC _ I) as (x & J & E). exists x. split; [exact J|].
    assert (C : In (pos (p, dr), j) (snd x)) by (apply (kn_cells _ _ KC _ (pos (p, dr), j) J); exists ((net, o), (p, dr), z, zz); split; [exact I|]; split; [symmetry; exact E|]; split; [reflexivity|exact H]).
    destruct x as [[k e] r]. cbn [snd] in C. pose proof (f_equal fst E) as E1. pose proof (f_equal snd E) as E2. cbn [vkey ekey fst snd] in E1, E2.
    assert (D : snd e = dr) by exact (f_equal snd E2). assert (OL : on_line p e = true) by (apply on_line_lid; rewrite D; exact E2).
    cbn [seen_c]. rewrite OL, D. apply existsb_in in C. rewrite C, E1. now left.
Qed.
Lemma seen_d_mem lab : In lab (flat_map (seen_d p j) ed) <-> exists z zz o i dr, lab = SW_Spec.LVDiel o i dr /\ In (SW_Model.VDiel z zz o i (p, dr)) L /\ (z <= j < zz)%Z.
Proof.
  rewrite in_flat_map. split.
  - intros (x & I & J). destruct x as [[k e] r]. cbn [seen_d] in J. destruct (on_line p e) eqn:OL; [|destruct J]. cbn [andb] in J. destruct (existsb (eqb (pos (p, snd e), j)) r) eqn:X; [|destruct J]. destruct J as [<-|[]].
    apply existsb_in in X. apply on_line_lid in OL. apply (kn_cells _ _ KD _ (pos (p, snd e), j) I) in X. destruct X as (v & V & E & IV). apply in_flat_map in V. destruct V as (s & V & Y).
    destruct s as [| | |z zz o i e'|]; cbn [v_diel] in Y; try (destruct Y; fail). destruct Y as [<-|[]]. destruct IV as [P1 P2]. cbn [fst snd] in P1, P2.
    pose proof (f_equal fst E) as E1. pose proof (f_equal snd E) as E2. cbn [vkey ekey fst snd] in E1, E2. rewrite OL in E2. rewrite <- E1. symmetry in P1. rewrite (same_piece (snd e) e' E2 P1) in V.
    exists z, zz, o, i, (snd e). auto.
  - intros (z & zz & o & i & dr & -> & V & H).
    assert (I : In ((o, i), (p, dr), z, zz) (flat_map v_diel L)) by (apply in_flat_map; exists (SW_Model.VDiel z zz o i (p, dr)); split; [exact V|now left]).
    destruct (kn_all _ _ KD _ I) as (x & J & E). exists x. split; [exact J|].
    assert (C : In (pos (p, dr), j) (snd x)) by (apply (kn_cells _ _ KD _ (pos (p, dr), j) J); exists ((o, i), (p, dr), z, zz); split; [exact I|]; split; [symmetry; exact E|]; split; [reflexivity|exact H]).
    destruct x as [[k e] r]. cbn [snd] in C. pose proof (f_equal fst E) as E1. pose proof (f_equal snd E) as E2. cbn [vkey ekey fst snd] in E1, E2.
    assert (D : snd e = dr) by exact (f_equal snd E2). assert (OL : on_line p e = true) by (apply on_line_lid; rewrite D; exact E2).
    cbn [seen_d]. rewrite OL, D. apply existsb_in in C. rewrite C, E1. now left.
Qed.
Lemma keyed_NoDup {X K La} (f : X -> list La) (ky : X -> K) (kl : La -> K) l : (forall x la, In la (f x) -> ky x = kl la) -> (forall x, (List.length (f x) <= 1)%nat) ->
  NoDup (map ky l) -> NoDup (flat_map f l).
Proof.
  intros H1 H2. induction l as [|x l IH]; cbn; intros N; [constructor|]. inversion N as [|? ? N1 N2]; subst. specialize (IH N2). pose proof (H1 x) as Hx. pose proof (H2 x) as Hl.
  destruct (f x) as [|la [|la' r]]; cbn in *; [exact IH| |lia]. constructor; [|exact IH]. intros I. apply in_flat_map in I. destruct I as (y & I & J). apply N1. rewrite (Hx la (or_introl eq_refl)), <- (H1 y la J). apply in_map, I.
Qed.
Lemma seen_NoDup : NoDup (flat_map (seen_c p j) ec ++ flat_map (seen_d p j) ed).
Proof.
  apply RN_All.NoDup_app'.
  - apply (keyed_NoDup (seen_c p j) ekey (fun la => match la with SW_Spec.LVCond net o dr => ((net, o), lid (p, dr)) | SW_Spec.LVDiel _ _ dr => ((""%string, None), lid (p, dr)) end)); [| |exact (kn_keys _ _ KC)].
    + intros [[k e] r] la I. cbn [seen_c] in I. destruct (on_line p e) eqn:OL; [|destruct I]. cbn [andb] in I. destruct (existsb (eqb (pos (p, snd e), j)) r); [|destruct I]. destruct I as [<-|[]]. apply on_line_lid in OL.
      unfold ekey. cbn [fst snd]. rewrite OL. destruct k; reflexivity.
    + intros [[k e] r]. cbn [seen_c]. destruct (_ && _); cbn; lia.
  - apply (keyed_NoDup (seen_d p j) ekey (fun la => match la with SW_Spec.LVDiel o i dr => ((o, i), lid (p, dr)) | SW_Spec.LVCond _ _ dr => ((None, None), lid (p, dr)) end)); [| |exact (kn_keys _ _ KD)].
    + intros [[k e] r] la I. cbn [seen_d] in I. destruct (on_line p e) eqn:OL; [|destruct I]. cbn [andb] in I. destruct (existsb (eqb (pos (p, snd e), j)) r); [|destruct I]. destruct I as [<-|[]]. apply on_line_lid in OL.
      unfold ekey. cbn [fst snd]. rewrite OL. destruct k; reflexivity.
    + intros [[k e] r]. cbn [seen_d]. destruct (_ && _); cbn; lia.
  - intros la I J. apply seen_c_mem in I. apply seen_d_mem in J. destruct I as (? & ? & ? & ? & ? & -> & _). destruct J as (? & ? & ? & ? & ? & Q & _). discriminate.
Qed.
(** *** heights between two levels *)
Lemma body_level who r a z : In (Body who r a z) ls -> SW_Spec.is_level 1%Qc us a /\ SW_Spec.is_level 1%Qc us z.
Proof.
  intros I. assert (E : SW_Spec.call_adds 1%Qc (as_call (Body who r a z)) who = Some (r, a, z)) by (rewrite adds_as, eqb_refl; reflexivity).
  split; exists (as_call (Body who r a z)), who, r, a, z; (split; [apply in_map, I|]); auto.
Qed.
Lemma level_const z zz c : VX_Sweep.steps 1%Qc us z zz -> (z <= j < zz)%Z -> owner ls (c, z) = owner ls (c, j).
Proof.
  intros (_ & _ & _ & N) H. unfold owner. apply find_same. intros who. unfold present.
  assert (E : forall l, In l ls -> fills (c, z) who l = fills (c, j) who l).
  { intros [m k|k r a b'] I; [reflexivity|]. cbn [fills fst snd]. destruct (body_level _ _ _ _ I) as [A A']. apply N in A. apply N in A'.
    f_equal. f_equal; [f_equal|]; apply eq_true_iff_eq; rewrite ?Z.leb_le, ?Z.ltb_lt; lia. }
  revert E. generalize ls. intros l. induction l as [|x l IH]; intros E; cbn; [reflexivity|]. rewrite (E x (or_introl eq_refl)). f_equal. apply IH. intros y I. apply E. now right.
Qed.
Lemma level_list z : SW_Spec.is_level 1%Qc us z <-> In z (flat_map (fun l => match l with Body _ _ a a' => [a; a'] | _ => [] end) ls).
Proof.
  rewrite in_flat_map. split.
  - intros (c & k & r & a & a' & I & E & H). apply in_map_iff in I. destruct I as (l & <- & I). exists l. split; [exact I|]. rewrite adds_as in E. destruct l as [|who r' z0 z1]; [discriminate|].
    destruct (eqb who k); [|discriminate]. injection E as -> -> ->. destruct H as [-> | ->]; cbn; auto.
  - intros ([m k|who r a a'] & I & J); [destruct J|]. destruct (body_level _ _ _ _ I) as [A A']. destruct J as [<-|[<-|[]]]; assumption.
Qed.
Lemma some_step who c : owner ls (c, j) = Some who -> exists z zz, VX_Sweep.steps 1%Qc us z zz /\ (z <= j < zz)%Z.
Proof.
  intros E. apply find_some in E. destruct E as [_ E]. apply existsb_exists in E. destruct E as ([m k|k r a a'] & I & F); [discriminate|]. cbn in F.
  rewrite !andb_true_iff, Z.leb_le, Z.ltb_lt in F. destruct F as (((_ & A) & A') & _). destruct (body_level _ _ _ _ I) as [La La'].
  pose proof La as Ia. pose proof La' as Ia'. apply level_list in Ia. apply level_list in Ia'.
  destruct (greatest j _ a Ia A) as (z & Z1 & Z2 & Z3). destruct (least j _ a' Ia' A') as (zz & Y1 & Y2 & Y3). exists z, zz. split; [|lia].
  split; [apply level_list, Z1|]. split; [apply level_list, Y1|]. split; [lia|]. intros y Y H. apply level_list in Y. destruct (Z_le_gt_dec y j) as [X|X]; [specialize (Z3 y Y X); lia|specialize (Y3 y Y ltac:(lia)); lia].
Qed.
Lemma piece_here who c : owner ls (c, j) = Some who -> c = piece_left p \/ c = piece_right p -> In p pieces.
Proof.
  intros E H. apply find_some in E. destruct E as [_ E]. apply existsb_exists in E. destruct E as ([m k|k r a a'] & I & F); [discriminate|]. cbn in F.
  rewrite !andb_true_iff in F. destruct F as (_ & F). apply existsb_in in F. unfold all_pieces. apply nodup_In, in_flat_map. exists c. split.
  - apply in_flat_map. exists (as_call (Body k r a a')). split; [apply in_map, I|]. destruct k; exact F.
  - destruct p as [x y|x y]; destruct H as [-> | ->]; cbn -[Z.add Z.sub]; rewrite ?Z.sub_simpl_r; auto.
Qed.
Lemma vertical_here z zz lab : In lab (SW_Spec.verticals z zz p L) <->
  (exists net o dr, lab = SW_Spec.LVCond net o dr /\ In (SW_Model.VCond z zz net o (p, dr)) L) \/ (exists o i dr, lab = SW_Spec.LVDiel o i dr /\ In (SW_Model.VDiel z zz o i (p, dr)) L).
Proof.
  unfold SW_Spec.verticals. rewrite in_flat_map. split.
  - intros (s & I & J). destruct s as [| | |z' zz' o i [e dr]|z' zz' net o [e dr]]; cbn [SW_Spec.vlabel_at] in J; try (destruct J; fail);
      (destruct ((z =? z')%Z && (zz =? zz')%Z && eqb p e) eqn:E; [|destruct J]); destruct J as [<-|[]]; rewrite !andb_true_iff, !Z.eqb_eq in E; destruct E as [[-> ->] E]; apply eqb_eq in E; subst e.
    + right. exists o, i, dr. auto.
    + left. exists net, o, dr. auto.
  - intros [(net & o & dr & -> & I)|(o & i & dr & -> & I)]; (eexists; split; [exact I|]); cbn [SW_Spec.vlabel_at]; rewrite !Z.eqb_refl, eqb_refl; now left.
Qed.
Notation expected := (SW_Spec.expected_v (declared ls) (owner ls (piece_left p, j)) (owner ls (piece_right p, j))).
Lemma expected_at z zz : In p pieces -> VX_Sweep.steps 1%Qc us z zz -> (z <= j < zz)%Z -> Permutation (SW_Spec.verticals z zz p L) expected.
Proof.
  intros I S H. rewrite <- (level_const z zz (piece_left p) S H), <- (level_const z zz (piece_right p) S H), <- !owner_as, <- materials_as.
  apply (SW_Props.C32_vertical_partial cell piece _ _ piece_left piece_right pieces 1%Qc us b g (NoDup_nodup _ _) B Two' Ge z zz p I). exact S.
Qed.
Lemma seen_expected : Permutation (flat_map (seen_c p j) ec ++ flat_map (seen_d p j) ed) expected.
Proof.
  apply NoDup_Permutation; [exact seen_NoDup|apply VX_Sweep.wall_NoDup|]. intros lab. rewrite in_app_iff, seen_c_mem, seen_d_mem. split.
  - intros H. assert (X : exists z zz, In lab (SW_Spec.verticals z zz p L) /\ VX_Sweep.steps 1%Qc us z zz /\ In p pieces /\ (z <= j < zz)%Z).
    { destruct H as [(z & zz & net & o & dr & -> & I & H)|(z & zz & o & i & dr & -> & I & H)]; exists z, zz; destruct (described _ I) as (S & _ & P); cbn [fst] in P; (split; [|auto]); apply vertical_here.
      - left. exists net, o, dr. auto.
      - right. exists o, i, dr. auto. }
    destruct X as (z & zz & I & S & P & Hj). exact (Permutation_in _ (expected_at z zz P S Hj) I).
  - intros I. assert (X : exists who c, owner ls (c, j) = Some who /\ (c = piece_left p \/ c = piece_right p)).
    { destruct (owner ls (piece_left p, j)) as [k|] eqn:E; [exists k, (piece_left p); auto|]. destruct (owner ls (piece_right p, j)) as [k|] eqn:E'; [exists k, (piece_right p); auto|]. destruct I. }
    destruct X as (who & c & E & H). destruct (some_step who c E) as (z & zz & S & Hj). apply (Permutation_in _ (Permutation_sym (expected_at z zz (piece_here who c E H) S Hj))) in I.
    apply vertical_here in I. destruct I as [(net & o & dr & -> & I)|(o & i & dr & -> & I)]; [left; exists z, zz, net, o, dr|right; exists z, zz, o, i, dr]; auto.
Qed.
Lemma wall_labels s t : 0 < s < 1 -> 0 < t < 1 -> let q := raise u (p, true) (IZR (start p) + s) (IZR j + t) in off_borders q rcs rds -> seen_at k_void mats q rcs rds (map (wanted_v p) expected).
Proof.
  intros S T q O. assert (X := at_point q (fun _ => []) (fun e => map (wanted_v p) (seen_c p j e)) (fun e => map (wanted_v p) (seen_d p j e)) rcs rds WL O).
  rewrite (flat_nil (fun _ => [])) in X by reflexivity. cbn [app] in X.
  assert (Q : cz q = (IZR j + t) * u) by (unfold q, raise; destruct (axis (p, true)); reflexivity).
  refine (finds_perm _ _ _ _ _ (Permutation_map (wanted_v p) seen_expected) _). rewrite map_app.
  assert (FM : forall A (f : A -> list SW_Spec.vlabel) l, map (wanted_v p) (flat_map f l) = flat_map (fun e => map (wanted_v p) (f e)) l).
  { intros A f l. induction l as [|x l IH]; cbn; [reflexivity|]. rewrite map_app. f_equal. exact IH. }
  rewrite !FM. apply X.
  - intros sf c I. apply (above_c n d k_void mats delaunay G _ j t sf c Q T (near sf I)).
  - intros sf c I. apply (above_d n d k_void mats delaunay G _ j t sf c Q T (near sf I)).
  - intros e I. exact (wall_c n d k_void mats delaunay G TR p j s t S T e (cells_c e I)).
  - intros e I. exact (wall_d n d k_void mats delaunay G TR p j s t S T e (cells_d e I)).
  - intros [| | | |]; reflexivity || exact Logic.I.
Qed.
End Wall.
(** *** from labels to what is wanted *)
Lemma finds_mono {X} (P : X -> Prop) (Rr : wanted -> X -> Prop) ps ws ws' : Forall2 (fun w w' => forall x, Rr w x -> Rr w' x) ws ws' -> finds P Rr ps ws -> finds P Rr ps ws'.
Proof.
  intros H (f & f' & A & Q & F). exists f, f'. split; [exact A|]. split; [exact Q|]. clear - H F. revert f' F. induction H; intros f' F; inversion F; subst; constructor; auto.
Qed.
Lemma flipped m m' v x : shows k_void mats (Interface m m' v) x -> shows k_void mats (Interface m' m (opposite v)) x.
Proof.
  destruct x as [|[[pn k] k']]; cbn; [auto|]. rewrite opposite_twice. tauto.
Qed.
Lemma left_back p : left (edge_of (p, false)) = opposite (left (edge_of (p, true))).
Proof. unfold left. rewrite !edge_dx, !edge_dy. destruct p; cbn; (apply f_equal2; [apply f_equal2|]); lra. Qed.
Lemma owner_known c who : owner ls c = Some who -> In who (everyone ls).
Proof. intros E. apply find_some in E. apply E. Qed.
Lemma mat_known m c : owner ls c = Some (Mat m) -> In m (declared ls).
Proof. intros E. apply owner_known, in_app_or in E. destruct E as [E|E]; apply in_map_iff in E; destruct E as (x & [= <-] & I); exact I. Qed.
Lemma find_two (a a' : string) l : In a l -> exists x, find (fun x => eqb x a || eqb x a') l = Some x /\ (x = a \/ x = a').
Proof.
  intros I. destruct (find (fun x => eqb x a || eqb x a') l) as [x|] eqn:E.
  - exists x. split; [reflexivity|]. apply find_some in E. destruct E as [_ E]. apply orb_true_iff in E. destruct E as [E|E]; apply eqb_eq in E; auto.
  - exfalso. apply (find_none _ _ E) in I. rewrite eqb_refl in I. discriminate.
Qed.
Lemma labels_wanted p c c' q : seen_at k_void mats q rcs rds (map (wanted_v p) (SW_Spec.expected_v (declared ls) (owner ls c) (owner ls c'))) ->
  seen_at k_void mats q rcs rds (between_owners (left (edge_of (p, true))) (owner ls c) (owner ls c')).
Proof.
  unfold SW_Spec.expected_v, between_owners. pose proof (fun m => mat_known m c) as MK. pose proof (fun m => mat_known m c') as MK'.
  destruct (eqb (owner ls c) (owner ls c')) eqn:E; [exact (fun X => X)|]. apply eqb_neq in E. rewrite <- left_back.
  destruct (owner ls c) as [[a|a]|], (owner ls c') as [[a'|a']|]; cbn [SW_Spec.expected_side app map wanted_v SW_Spec.material_of material_of]; try exact (fun X => X).
  - destruct (find_two a a' (declared ls) (MK a eq_refl)) as (x & F & Hx). destruct (find_two a' a (declared ls) (MK' a' eq_refl)) as (x' & F' & Hx').
    assert (x = x').
    { rewrite (find_same (fun x => eqb x a' || eqb x a) (fun x => eqb x a || eqb x a')) in F' by (intros; apply Bool.orb_comm). congruence. }
    subst x'. rewrite F, F'. assert (Ne : a <> a') by congruence. destruct Hx as [-> | ->].
    + rewrite eqb_refl. destruct (eqb a a') eqn:Q; [apply eqb_eq in Q; contradiction|]. cbn [app map wanted_v]. apply finds_mono. constructor; [|constructor]. intros y Y. apply flipped in Y. rewrite left_back, opposite_twice in Y. exact Y.
    + rewrite eqb_refl. destruct (eqb a' a) eqn:Q; [apply eqb_eq in Q; congruence|]. cbn [app map wanted_v]. apply finds_mono. constructor; [|constructor]. intros y Y. apply flipped in Y.
      apply flipped in Y. rewrite opposite_twice in Y. exact Y.
  - apply finds_mono. constructor; [|constructor]. intros y Y. apply flipped in Y. rewrite left_back, opposite_twice in Y. exact Y.
  - congruence.
Qed.
Lemma owners_swap q v o o' : seen_at k_void mats q rcs rds (between_owners v o o') -> seen_at k_void mats q rcs rds (between_owners (opposite v) o' o).
Proof.
  unfold between_owners. destruct (eqb o o') eqn:E.
  - apply eqb_eq in E. subst o'. rewrite eqb_refl. exact (fun X => X).
  - apply eqb_neq in E. destruct (eqb o' o) eqn:Q; [apply eqb_eq in Q; congruence|]. rewrite opposite_twice.
    destruct o as [[a|a]|], o' as [[a'|a']|]; try exact (fun X => X); try (apply finds_mono; constructor; [|constructor]; intros y Y; apply flipped in Y; exact Y).
    apply finds_perm, perm_swap.
Qed.
Lemma seen_wall q v first second : wall_point u q v first second -> off_borders q rcs rds -> seen_at k_void mats q rcs rds (between_owners v (owner ls first) (owner ls second)).
Proof.
  intros [x y k s t S T|x y k s t S T] O.
  - pose proof (wall_labels (PY x y) k s t S T) as X. cbn zeta in X. unfold raise in X. cbn [axis fst snd sign line_at start] in X. rewrite Rmult_1_l in X. specialize (X O). apply labels_wanted in X.
    replace (left (edge_of (PY x y, true))) with ((-1, 0, 0) : vec) in X; [exact X|]. unfold left. rewrite edge_dx, edge_dy. cbn. (apply f_equal2; [apply f_equal2|]); lra.
  - pose proof (wall_labels (PX x y) k s t S T) as X. cbn zeta in X. unfold raise in X. cbn [axis fst snd sign line_at start] in X. rewrite Rmult_1_l in X. specialize (X O). apply labels_wanted, owners_swap in X.
    replace (opposite (left (edge_of (PX x y, true)))) with ((0, -1, 0) : vec) in X; [exact X|]. unfold left. rewrite edge_dx, edge_dy. cbn. (apply f_equal2; [apply f_equal2|]); lra.
Qed.
(** ** Points on no side of a panel *)
Lemma placed_source place v ts ps p : Forall tri_ok ts -> Forall2 (panel_at place v) ts ps -> ((exists k, place = level u (IZR k * u)) \/ exists e, place = wall u (edge_of e)) -> In p ps -> source u (fst p).
Proof.
  intros T F E I. induction F as [|t p' ts ps [X _] F IH]; [destruct I|]. inversion T; subst. destruct I as [<-|I]; [|now apply IH]. exists t, v, place. auto.
Qed.
Lemma cond_source c qs x : In c cl -> cond_panels u k_void mats c qs -> In x qs -> source u (fst (fst x)).
Proof.
  intros I [_ P] J. apply (in_map fst) in J. apply in_app_or in I. destruct I as [I|I].
  - apply in_flat_map in I. destruct I as (s & I & K). pose proof (near s I) as N. destruct s as [|z net m r|z net m r| |]; cbn [h_cond] in K; try (destruct K; fail); destruct K as [<-|[]]; destruct N as [NZ NR];
      apply (level_exact n d G z _ _ _ NZ) in P; apply (placed_source _ _ _ _ _ (delaunay_ok r NR) P); eauto.
  - apply in_map_iff in I. destruct I as (e & <- & I). pose proof (cells_c e I) as N. destruct e as [[k e] r]. cbn [vc] in P. unfold wall_panels in P. apply (placed_source _ _ _ _ _ (delaunay_ok r N) P); eauto.
Qed.
Lemma diel_source c qs x : In c dl -> diel_panels u k_void mats c qs -> In x qs -> source u (fst (fst (fst x))).
Proof.
  intros I (m & m' & v & _ & _ & P) J. apply (in_map (fun q : interface => fst (fst q))) in J. apply in_app_or in I. destruct I as [I|I].
  - apply in_flat_map in I. destruct I as (s & I & K). pose proof (near s I) as N. destruct s as [z o i r| | | |]; cbn [h_diel] in K; try (destruct K; fail); destruct K as [<-|[]]; destruct N as [NZ NR].
    apply (level_exact n d G z _ _ _ NZ) in P; apply (placed_source _ _ _ _ _ (delaunay_ok r NR) P); eauto.
  - apply in_map_iff in I. destruct I as (e & <- & I). pose proof (cells_d e I) as N. destruct e as [[k e] r]. cbn [vd] in P. unfold wall_panels in P. apply (placed_source _ _ _ _ _ (delaunay_ok r N) P); eauto.
Qed.
Lemma made_source {A Bb} (shown : A -> list Bb -> Prop) l ps x : made_from shown l ps -> In x ps -> exists c qs, In c l /\ shown c qs /\ In x qs.
Proof.
  intros (pss & F & Q) I. apply (Permutation_in _ Q) in I. clear Q. induction F as [|c qs l pss X F IH]; [destruct I|]. cbn in I. apply in_app_or in I. destruct I as [I|I].
  - exists c, qs. split; [now left|auto].
  - destruct (IH I) as (c' & qs' & J & Y). exists c', qs'. split; [now right|exact Y].
Qed.
Lemma all_sources x : In x (views rcs rds) -> source u (facet_of x).
Proof.
  destruct WL as (_ & _ & _ & MC & MD). intros I. apply in_app_or in I. destruct I as [I|I].
  - apply in_flat_map in I. destruct I as (c & I & J). apply in_map_iff in J. destruct J as (x' & <- & J). destruct (made_source _ _ _ _ (MC c I) J) as (s & qs & K & P & L').
    apply filter_In in K. exact (cond_source s qs x' (proj1 K) P L').
  - apply in_map_iff in I. destruct I as (x' & <- & J). destruct (made_source _ _ _ _ MD J) as (s & qs & K & P & L'). exact (diel_source s qs x' K P L').
Qed.
Lemma level_free x y k : exists q, level_point u q ((x, y), (k - 1)%Z) ((x, y), k) /\ off_borders q rcs rds.
Proof.
  eexists. split; [exact (LevelPoint u x y k tiny (tiny * tiny) tiny_range tiny2_range)|]. intros v I. exact (off_level_point u (upos n d G) x y k _ (all_sources v I)).
Qed.
Lemma wall_x_free x y k : exists q, wall_point u q (-1, 0, 0) (((x - 1)%Z, y), k) ((x, y), k) /\ off_borders q rcs rds.
Proof.
  eexists. split; [exact (WallX u x y k tiny (tiny * tiny) tiny_range tiny2_range)|]. intros v I Bd. apply (off_wall_point u (upos n d G) (PY x y) k _ (all_sources v I)).
  unfold raise. cbn [axis fst snd sign line_at start]. rewrite Rmult_1_l. exact Bd.
Qed.
Lemma wall_y_free x y k : exists q, wall_point u q (0, -1, 0) ((x, (y - 1)%Z), k) ((x, y), k) /\ off_borders q rcs rds.
Proof.
  eexists. split; [exact (WallY u x y k tiny (tiny * tiny) tiny_range tiny2_range)|]. intros v I Bd. apply (off_wall_point u (upos n d G) (PX x y) k _ (all_sources v I)).
  unfold raise. cbn [axis fst snd sign line_at start]. rewrite Rmult_1_l. exact Bd.
Qed.
Lemma net_names : NoDup (map name rcs) /\ forall x, In x (map name rcs) -> In x (nets ls).
Proof.
  destruct WL as (N & _ & H & _). split; [exact N|]. intros x I. apply H in I. destruct I as (s & gt & I & <- & _). destruct (cond_from s I) as [_ (A & _)]. exact A.
Qed.
End Kept.
End Sweep.
(** ** The run *)
Lemma run_parts : exists b g ec ed, SW_Model.build 1%Qc us = Some b /\ SW_Model.generate piece_left piece_right pieces b = Some g /\
  known (flat_map v_cond (SW_Model.surfaces g)) ec /\ known (flat_map v_diel (SW_Model.surfaces g)) ed /\
  fastercap_input square limit dbu prefix k_void mats hash (flat_map (h_diel dbu delaunay) (SW_Model.surfaces g) ++ map (vd delaunay) ed)
    (flat_map (h_cond dbu delaunay) (SW_Model.surfaces g) ++ map (vc delaunay) ec) old = Some new.
Proof.
  unfold fastercap_files in Run. rewrite (all_means n d cs ls ME) in Run. destruct (SW_Model.build 1%Qc us) as [b|] eqn:B; [|discriminate].
  destruct (SW_Model.generate piece_left piece_right pieces b) as [g|] eqn:Ge; [|discriminate]. destruct G as (N & S & _).
  destruct (insert_all_known along n d _ W N S (diel_items b g B Ge)) as (ed & ED & KD). destruct (insert_all_known along n d _ W N S (cond_items b g B Ge)) as (ec & EC & KC).
  unfold diel_surfaces, cond_surfaces in Run. rewrite ED, EC in Run. cbn [option_map] in Run. rewrite (values_means n d cs ls ME) in Run.
  exists b, g, ec, ed. auto.
Qed.
(** all that C105 says about what is read *)
Definition panels_right (rcs : list conductor) (rds : list interface) : Prop :=
  (forall q below above, level_point u q below above -> off_borders q rcs rds -> (owner ls below = owner ls above \/ forall who, ~ hidden ls below above who) ->
    seen_at k_void mats q rcs rds (below_above (owner ls below) (owner ls above))) /\
  (forall q v first second, wall_point u q v first second -> off_borders q rcs rds -> seen_at k_void mats q rcs rds (between_owners v (owner ls first) (owner ls second))) /\
  (forall q, inner_point u q -> off_borders q rcs rds -> seen_at k_void mats q rcs rds []) /\
  (NoDup (map name rcs) /\ forall x, In x (map name rcs) -> In x (nets ls)) /\
  (forall x y k, exists q, level_point u q ((x, y), (k - 1)%Z) ((x, y), k) /\ off_borders q rcs rds) /\
  (forall x y k, exists q, wall_point u q (-1, 0, 0) (((x - 1)%Z, y), k) ((x, y), k) /\ off_borders q rcs rds) /\
  (forall x y k, exists q, wall_point u q (0, -1, 0) ((x, (y - 1)%Z), k) ((x, y), k) /\ off_borders q rcs rds) /\
  (forall q below above w, level_point u q below above -> off_borders q rcs rds -> ~ (exists m m', owner ls below = Some (Net m) /\ owner ls above = Some (Net m')) ->
    In w (below_above (owner ls below) (owner ls above)) -> exists x, In x (views rcs rds) /\ inside q (facet_of x) /\ shows k_void mats w x) /\
  (exists b g, SW_Model.build 1%Qc us = Some b /\ SW_Model.generate piece_left piece_right pieces b = Some g /\
    forall x y j s t, 0 < s < 1 -> 0 < t < 1 -> let q := ((IZR x + s) * u, (IZR y + t) * u, IZR j * u) in off_borders q rcs rds ->
    seen_at k_void mats q rcs rds (map wanted_h (SW_Spec.horizontals j (x, y) (SW_Model.surfaces g)))).
Lemma all_right : exists rcs rds, reads new (prefix ++ ".lst") rcs rds /\ panels_right rcs rds.
Proof.
  destruct run_parts as (b & g & ec & ed & B & Ge & KC & KD & I). destruct (layout_read b g B Ge ec ed KC KD I) as (rcs & rds & Rd & WL). exists rcs, rds. split; [exact Rd|].
  split; [exact (seen_level b g B Ge ec ed rcs rds WL)|]. split; [exact (seen_wall b g B Ge ec ed KC KD rcs rds WL)|].
  split; [exact (seen_inner b g B Ge ec ed rcs rds WL)|split; [exact (net_names b g B Ge ec ed KC rcs rds WL)|]].
  split; [exact (level_free b g B Ge ec ed KC KD rcs rds WL)|]. split; [exact (wall_x_free b g B Ge ec ed KC KD rcs rds WL)|]. split; [exact (wall_y_free b g B Ge ec ed KC KD rcs rds WL)|].
  split; [exact (level_found b g B Ge ec ed rcs rds WL)|]. exists b, g. split; [exact B|]. split; [exact Ge|]. exact (level_labels b g B Ge ec ed rcs rds WL).
Qed.
End Main.
