(** Theorems about the resistance extraction with the shipped PDKs, for every LVS database. *)
From Coq Require Import String ZArith Lia QArith.
From Verif Require Import PyBase PyLib QcLra SW_Model TI_Model LV_Model LV_Spec LV_Proofs LV_Props RQ_Model RQ_Spec RQ_Proofs RQ_Props
  PD_Model PD_Sky130A PD_Ihp PD_Spec PD_Proofs PD_Pins PD_Props.
Local Open Scope string_scope.
Local Open Scope list_scope.

Lemma Forall2_In_left {A B} (R : A -> B -> Prop) l k : Forall2 R l k -> forall x, In x l -> exists y, In y k /\ R x y.
Proof. induction 1; intros z I; [destruct I|]; destruct I as [<-|I]; [eauto using in_eq|]. destruct (IHForall2 z I) as (y' & J & Q). eauto using in_cons. Qed.
Lemma Forall2_In_right {A B} (R : A -> B -> Prop) l k : Forall2 R l k -> forall y, In y k -> exists x, In x l /\ R x y.
Proof. induction 1; intros z I; [destruct I|]; destruct I as [<-|I]; [eauto using in_eq|]. destruct (IHForall2 z I) as (y' & J & Q). eauto using in_cons. Qed.

Section Checks.
Variable T : technology.
Notation t := (tech_of T).
Notation stack := (rstack_of T).
Notation res := (resistances_of T).
Definition some_b {A} (o : option A) : bool := match o with Some _ => true | None => false end.
(** the layers a via with this LVS name should join, and its resistance and width *)
Definition via_data (n : string) (c : clayer) : option (option gds * option gds * option Qc * Qc) :=
  match cl_kind c with
  | KPin => None
  | _ =>
    match cl_purpose c, named (all_contacts stack) n with
    | PContact, Some k => Some (pair_of t (rc_below k), pair_of t (rc_above k), table (res_contacts res) (rc_below k), rc_width k)
    | PVia, Some k => match named (metal_contacts stack) n with
                      | Some m => Some (pair_of t (rc_below m), pair_of t (rc_above m), table (res_vias res) (cl_orig c), rc_width k)
                      | None => None
                      end
    | _, _ => None
    end
  end.
Definition breaks_b (n : string) (c : clayer) : bool :=
  match cl_kind c with
  | KPin => false
  | _ =>
    match cl_purpose c with
    | PMetal => negb (some_b (table (res_layers res) (cl_orig c)))
    | PContact => match named (all_contacts stack) n with
                  | Some k => some_b (table (res_contacts res) (rc_below k)) && negb (some_b (pair_of t (rc_below k)) && some_b (pair_of t (rc_above k)))
                  | None => false
                  end
    | PVia => some_b (table (res_vias res) (cl_orig c)) &&
              match named (metal_contacts stack) n with Some m => negb (some_b (pair_of t (rc_below m)) && some_b (pair_of t (rc_above m))) | None => false end
    | _ => false
    end
  end.
Lemma unresolved_b below above : unresolved t below above -> negb (some_b (pair_of t below) && some_b (pair_of t above)) = true.
Proof. unfold unresolved. destruct (pair_of t below), (pair_of t above); simpl; intuition discriminate. Qed.
Lemma breaks_b_ok l c : breaks t stack res l c -> breaks_b (lv_name l) c = true.
Proof.
  unfold breaks, breaks_b. intros [K B]. destruct (cl_kind c); try congruence; destruct (cl_purpose c); try contradiction.
  all: try (rewrite B; reflexivity).
  all: try (destruct B as (k & -> & Tk & U); apply unresolved_b in U; destruct (table _ _); [exact U|congruence]).
  all: destruct B as (Tk & k & -> & U); apply unresolved_b in U; destruct (table _ _); [exact U|congruence].
Qed.
(** the computed layers that LVS layers can stand for *)
Definition each_layer (P : string -> clayer -> clayer -> bool) : bool :=
  forallb (fun i => match info_of t (cl_name i) with
                    | Some j => match layer_at t (cl_pair j) with Some c => P (cl_name j) j c | None => true end
                    | None => true end) (computed t).
Lemma each_layer_ok P : each_layer P = true -> forall n i c, info_of t n = Some i -> layer_at t (cl_pair i) = Some c -> P n i c = true.
Proof.
  intros F n i c E L. unfold each_layer in F. destruct (info_In _ _ _ E) as [I N]. rewrite forallb_forall in F. specialize (F i I).
  rewrite N, E, L, N in F. exact F.
Qed.
Definition label_b (i : clayer) : bool := match cl_kind i with KLabel => true | _ => false end.
Definition stray_b (n : string) (c : clayer) : bool :=
  match cl_kind c, cl_purpose c with
  | KPin, _ => false
  | _, PVia => some_b (table (res_vias res) (cl_orig c)) && negb (some_b (named (metal_contacts stack) n))
  | _, _ => false
  end.
Lemma stray_b_ok l c : stray_via stack res l c -> stray_b (lv_name l) c = true.
Proof.
  unfold stray_via, stray_b. intros (K & P & Tk & N). rewrite P, N. destruct (table _ _); [|congruence]. destruct (cl_kind c); reflexivity || congruence.
Qed.
Lemma in_use_of b db l i c : In l (db_layers db) -> db_shapes db (lv_index l) <> [] -> info_of t (lv_name l) = Some i -> hidden b i = false -> layer_at t (cl_pair i) = Some c ->
  in_use t b db l c.
Proof.
  intros I Ne E Hd L. split; [exact I|]. split; [|eauto]. unfold has_shapes. destruct (db_shapes db (lv_index l)); [congruence|reflexivity].
Qed.
Definition via_row_ok (row : viarow) : bool :=
  match info_of t (vr_lvs row) with
  | Some i => regular i &&
      match layer_at t (cl_pair i) with
      | Some c => gives_via stack res (LvsLayer 0 (vr_lvs row) None) c && negb (stray_b (vr_lvs row) c) &&
          match via_data (vr_lvs row) c with
          | Some (Some b, Some a, Some r, w) => eqb b (vr_bottom row) && eqb a (vr_top row) && qeqb r (Q2Qc (vr_resistance row)) && qeqb w (Q2Qc (vr_width row))
          | _ => false
          end
      | None => false
      end
  | None => false
  end.
Definition metal_row_ok (row : metalrow) : bool :=
  match info_of t (mr_lvs row) with
  | Some i => regular i && eqb (cl_pair i) (mr_pair row) &&
      match layer_at t (cl_pair i) with
      | Some c => gives_conductor c && eqb (cl_pair c) (mr_pair row) && match cl_purpose c, table (res_layers res) (cl_orig c) with PMetal, Some r => qeqb r (Q2Qc (mr_resistance row)) | _, _ => false end
      | None => false
      end
  | None => false
  end.

Section DB.
Variables (sub wire : algorithm) (b amax merge : Qc) (skip : bool) (blackbox : bool) (db : lvsdb) (lid : gds -> nat).
Hypothesis wf : db_wf db.
Notation rt := (r_tech T sub wire b amax merge skip blackbox db lid).
Lemma r_total : each_layer (fun n i c => label_b i || negb (breaks_b n c)) = true -> labels_have_no_polygons T db -> exists r, rt = Some r.
Proof.
  intros K Lb. destruct rt as [r|] eqn:E; [eauto|]. exfalso. unfold r_tech in E. apply (C70_fails _ _ _ _ _ _ _ _ _ _ _ _ wf) in E.
  destruct E as (l & c & (I & Hs & i & Ei & Hd & La) & B). pose proof (each_layer_ok _ K _ _ _ Ei La) as X. cbv beta in X. rewrite (breaks_b_ok _ _ B), Bool.orb_false_r in X.
  unfold label_b in X. destruct (cl_kind i) eqn:Ki; try discriminate. unfold has_shapes in Hs. rewrite (Lb l i I Ei Ki) in Hs. discriminate.
Qed.
Lemma r_fails l i c : drawn_on db (cl_name i) l -> info_of t (cl_name i) = Some i -> hidden blackbox i = false -> layer_at t (cl_pair i) = Some c ->
  cl_kind c <> KPin -> cl_purpose c = PMetal -> table (res_layers res) (cl_orig c) = None -> rt = None.
Proof.
  intros (I & N & S) E Hd La K P Tb. unfold r_tech. apply (C70_fails _ _ _ _ _ _ _ _ _ _ _ _ wf). exists l, c. split; [eapply in_use_of; eauto; congruence|].
  split; [exact K|]. rewrite P. exact Tb.
Qed.
Lemma r_via r row l : via_row_ok row = true -> rt = Some r -> drawn_on db (vr_lvs row) l ->
  exists v, In v (rt_vias r) /\ vi_lvs v = vr_lvs row /\ vi_bottom v = lid (vr_bottom row) /\ vi_top v = lid (vr_top row) /\
    (Q2Qc 1000 * vi_resistance v = Q2Qc (vr_resistance row) * (Q2Qc (vr_width row) * Q2Qc (vr_width row)))%Qc.
Proof.
  unfold via_row_ok, r_tech. intros K E (I & N & S). destruct (info_of t (vr_lvs row)) as [i|] eqn:Ei; [|discriminate]. apply andb_prop in K. destruct K as [Kr K].
  destruct (layer_at t (cl_pair i)) as [c|] eqn:La; [|discriminate]. apply andb_prop in K. destruct K as [K Kd]. apply andb_prop in K. destruct K as [Kg Ks].
  assert (U : in_use t blackbox db l c) by (eapply in_use_of; eauto; [rewrite N; exact Ei|apply regular_shown, Kr]).
  assert (F : In (l, c) (filter (fun e => gives_via stack res (fst e) (snd e)) (layers_in_use t blackbox db))).
  { apply filter_In. split; [apply (C70_layers t blackbox db wf), U|]. simpl. unfold gives_via in *. simpl in Kg. rewrite N. exact Kg. }
  destruct (Forall2_In_left _ _ _ (C70_vias _ _ _ _ _ _ _ _ _ _ _ _ _ wf E) _ F) as (v & Iv & [V|[St _]]); simpl in *.
  2:{ apply stray_b_ok in St. rewrite N in St. rewrite St in Ks. discriminate. }
  exists v. split; [exact Iv|]. destruct V as (Kp & _ & _ & Vl & _ & below & above & k & r0 & pb & pa & Nk & Pb & Pa & Vb & Vt & Vr & M).
  rewrite N in *. unfold via_data in Kd. rewrite Nk in Kd.
  destruct (cl_kind c); try congruence; destruct (cl_purpose c); try contradiction.
  all: try (destruct M as ((m & Nm & -> & ->) & Tb); rewrite Nm in Kd). all: try (destruct M as (-> & -> & Tb)).
  all: rewrite Pb, Pa, Tb in Kd; repeat (apply andb_prop in Kd; destruct Kd as [Kd ?]).
  all: apply eqb_eq in Kd; match goal with H : eqb _ _ = true |- _ => apply eqb_eq in H end; repeat match goal with H : qeqb _ _ = true |- _ => apply qeqb_true in H end.
  all: subst; repeat split; auto; congruence.
Qed.
Lemma r_conductor r row l : metal_row_ok row = true -> rt = Some r -> drawn_on db (mr_lvs row) l ->
  exists k, In k (rt_conductors r) /\ co_lvs k = mr_lvs row /\ co_layer k = lid (mr_pair row) /\ (Q2Qc 1000 * co_resistance k = Q2Qc (mr_resistance row))%Qc.
Proof.
  unfold metal_row_ok, r_tech. intros K E (I & N & S). destruct (info_of t (mr_lvs row)) as [i|] eqn:Ei; [|discriminate]. apply andb_prop in K. destruct K as [Kr K].
  apply andb_prop in Kr. destruct Kr as [Kr Kp]. apply eqb_eq in Kp.
  destruct (layer_at t (cl_pair i)) as [c|] eqn:La; [|discriminate]. apply andb_prop in K. destruct K as [K Kt]. apply andb_prop in K. destruct K as [Kg Kc]. apply eqb_eq in Kc.
  assert (U : in_use t blackbox db l c) by (eapply in_use_of; eauto; [rewrite N; exact Ei|apply regular_shown, Kr]).
  assert (F : In (l, c) (filter (fun e => gives_conductor (snd e)) (layers_in_use t blackbox db))).
  { apply filter_In. split; [apply (C70_layers t blackbox db wf), U|]. exact Kg. }
  destruct (C70_conductors _ _ _ _ _ _ _ _ _ _ _ _ _ wf E) as [_ G].
  destruct (Forall2_In_left _ _ _ G _ F) as (k & Ik & C). simpl in C. destruct C as (_ & Cl & _ & Cn & _ & _ & M).
  exists k. destruct (cl_purpose c); try discriminate. destruct M as [_ M]. rewrite M in Kt. apply qeqb_true in Kt. repeat split; auto; congruence.
Qed.
Lemma r_no_stray r : each_layer (fun n i c => hidden blackbox i || negb (stray_b n c)) = true -> rt = Some r ->
  Forall2 (fun e v => via_for t stack res lid merge (fst e) (snd e) v)
          (filter (fun e => gives_via stack res (fst e) (snd e)) (layers_in_use t blackbox db)) (rt_vias r).
Proof.
  intros K E. pose proof (C70_vias _ _ _ _ _ _ _ _ _ _ _ _ _ wf E) as G.
  assert (X : forall e, In e (filter (fun e => gives_via stack res (fst e) (snd e)) (layers_in_use t blackbox db)) -> ~ stray_via stack res (fst e) (snd e)).
  { intros [l c] I St. apply filter_In in I. destruct I as [I _]. apply (C70_layers t blackbox db wf) in I. destruct I as (_ & _ & i & Ei & Hd & La).
    pose proof (each_layer_ok _ K _ _ _ Ei La) as Y. cbv beta in Y. simpl in St. rewrite Hd, (stray_b_ok _ _ St) in Y. discriminate. }
  revert X. induction G as [|e v l k H G IH]; intros X; constructor.
  - destruct H as [V|[St _]]; [exact V|]. exfalso. exact (X e (or_introl eq_refl) St).
  - apply IH. intros e' I'. apply X. right. exact I'.
Qed.
(** a via comes from an LVS layer with a contact in the process stack, or is empty *)
Lemma r_via_from r v : rt = Some r -> In v (rt_vias r) -> v = empty_via \/
  exists l i c b a rr w, In l (db_layers db) /\ info_of t (lv_name l) = Some i /\ layer_at t (cl_pair i) = Some c /\ vi_lvs v = lv_name l /\
    via_data (lv_name l) c = Some (Some b, Some a, Some rr, w) /\ vi_bottom v = lid b /\ vi_top v = lid a.
Proof.
  intros E I. destruct (Forall2_In_right _ _ _ (C70_vias _ _ _ _ _ _ _ _ _ _ _ _ _ wf E) _ I) as ([l c] & F & [V|[_ ->]]); [|auto]. right.
  apply filter_In in F. destruct F as [F _]. apply (C70_layers t blackbox db wf) in F. destruct F as (Il & _ & i & Ei & _ & La). simpl in *.
  destruct V as (Kp & _ & _ & Vl & _ & below & above & k & r0 & pb & pa & Nk & Pb & Pa & Vb & Vt & _ & M).
  exists l, i, c, pb, pa, r0, (rc_width k). repeat split; auto. unfold via_data. rewrite Nk.
  destruct (cl_kind c); try congruence; destruct (cl_purpose c); try contradiction.
  all: try (destruct M as ((m & Nm & -> & ->) & Tb); rewrite Nm). all: try (destruct M as (-> & -> & Tb)). all: rewrite Pb, Pa, Tb; reflexivity.
Qed.
End DB.
End Checks.

Lemma sky_breaks : each_layer sky130A (fun n i c => label_b i || negb (breaks_b sky130A n c)) = true.
Proof. vm_compute. reflexivity. Qed.
Lemma ihp_breaks : each_layer ihp (fun n i c => label_b i || negb (breaks_b ihp n c)) = true.
Proof. vm_compute. reflexivity. Qed.
Lemma sky_stray : each_layer sky130A (fun n i c => hidden true i || negb (stray_b sky130A n c)) = true.
Proof. vm_compute. reflexivity. Qed.
Lemma ihp_stray : each_layer ihp (fun n i c => hidden true i || negb (stray_b ihp n c)) = true.
Proof. vm_compute. reflexivity. Qed.
Lemma sky_via_rows : forallb (via_row_ok sky130A) sky130A_vias = true.
Proof. vm_compute. reflexivity. Qed.
Lemma ihp_via_rows : forallb (via_row_ok ihp) ihp_vias = true.
Proof. vm_compute. reflexivity. Qed.
Lemma sky_metal_rows : forallb (metal_row_ok sky130A) sky130A_metals = true.
Proof. vm_compute. reflexivity. Qed.
Lemma ihp_metal_rows : forallb (metal_row_ok ihp) ihp_metals = true.
Proof. vm_compute. reflexivity. Qed.

(** C74: the resistance extraction of both PDKs can be prepared for every layout without polygons on text layers *)
Theorem C74_total : forall T sub wire b amax merge skip blackbox db lid, shipped T -> db_wf db -> labels_have_no_polygons T db ->
  exists r, r_tech T sub wire b amax merge skip blackbox db lid = Some r.
Proof. intros T sub wire b amax merge skip bb db lid [->| ->] wf; [apply r_total, sky_breaks|apply r_total, ihp_breaks]; exact wf. Qed.
(** every wire metal is a conductor with the sheet resistance of the process *)
Theorem C74_metals : forall T rows sub wire b amax merge skip blackbox db lid r row l,
  (T = sky130A /\ rows = sky130A_metals) \/ (T = ihp /\ rows = ihp_metals) ->
  db_wf db -> r_tech T sub wire b amax merge skip blackbox db lid = Some r -> In row rows -> drawn_on db (mr_lvs row) l ->
  exists k, In k (rt_conductors r) /\ co_lvs k = mr_lvs row /\ co_layer k = lid (mr_pair row) /\ (Q2Qc 1000 * co_resistance k = Q2Qc (mr_resistance row))%Qc.
Proof.
  intros T rows sub wire b amax merge skip bb db lid r row l H wf E I D. pose proof sky_metal_rows as S. pose proof ihp_metal_rows as J. rewrite forallb_forall in S, J.
  destruct H as [[-> ->]|[-> ->]]; eapply r_conductor; eauto.
Qed.
(** every contact and via joins the layers it joins in the process, with the cut's resistance times its area *)
Theorem C74_vias : forall T rows sub wire b amax merge skip blackbox db lid r row l,
  (T = sky130A /\ rows = sky130A_vias) \/ (T = ihp /\ rows = ihp_vias) ->
  db_wf db -> r_tech T sub wire b amax merge skip blackbox db lid = Some r -> In row rows -> drawn_on db (vr_lvs row) l ->
  exists v, In v (rt_vias r) /\ vi_lvs v = vr_lvs row /\ vi_bottom v = lid (vr_bottom row) /\ vi_top v = lid (vr_top row) /\
    (Q2Qc 1000 * vi_resistance v = Q2Qc (vr_resistance row) * (Q2Qc (vr_width row) * Q2Qc (vr_width row)))%Qc.
Proof.
  intros T rows sub wire b amax merge skip bb db lid r row l H wf E I D. pose proof sky_via_rows as S. pose proof ihp_via_rows as J. rewrite forallb_forall in S, J.
  destruct H as [[-> ->]|[-> ->]]; eapply r_via; eauto.
Qed.
(** with blackboxed devices no via is left without its layers *)
Theorem C74_no_stray : forall T sub wire b amax merge skip db lid r, shipped T -> db_wf db -> r_tech T sub wire b amax merge skip true db lid = Some r ->
  Forall2 (fun e v => via_for (tech_of T) (rstack_of T) (resistances_of T) lid merge (fst e) (snd e) v)
          (filter (fun e => gives_via (rstack_of T) (resistances_of T) (fst e) (snd e)) (layers_in_use (tech_of T) true db)) (rt_vias r).
Proof. intros T sub wire b amax merge skip db lid r [->| ->] wf E; [eapply r_no_stray; eauto using sky_stray|eapply r_no_stray; eauto using ihp_stray]. Qed.

(** sky130A: met1_con, met2_con and the via between them are drawn, but no via joins them: the process stack calls it "via",
    the layer table "via1" *)
Definition joins68 (T : technology) : bool :=
  each_layer T (fun n _ c => negb (eqb n "via1_con") || negb (some_b (via_data T n c)) || match via_data T n c with Some (_, _, Some _, _) => false | _ => true end) &&
  each_layer T (fun n _ c => match via_data T n c with Some (Some b, Some a, Some _, _) => negb (eqb b (68, 20)%Z && eqb a (69, 20)%Z) | _ => true end).
Lemma sky_joins68 : joins68 sky130A = true.
Proof. vm_compute. reflexivity. Qed.
Theorem C74_sky130A_via1_refuted : forall sub wire b amax merge skip blackbox db lid r v, db_wf db ->
  r_tech sky130A sub wire b amax merge skip blackbox db lid = Some r -> In v (rt_vias r) ->
  vi_lvs v <> "via1_con" /\
  ((forall p q, lid p = lid q -> p = q) -> ~ (vi_bottom v = lid (68, 20)%Z /\ vi_top v = lid (69, 20)%Z)).
Proof.
  intros sub wire b amax merge skip bb db lid r v wf E I. pose proof sky_joins68 as K. unfold joins68 in K. apply andb_prop in K. destruct K as [K1 K2].
  destruct (r_via_from _ _ _ _ _ _ _ _ _ _ wf r v E I) as [->|(l & i & c & pb & pa & rr & w & _ & Ei & La & Vl & Vd & Vb & Vt)].
  - split; [discriminate|]. intros J [B T]. simpl in B, T. assert (X : lid (68, 20)%Z = lid (69, 20)%Z) by congruence. apply J in X. discriminate.
  - pose proof (each_layer_ok _ _ K1 _ _ _ Ei La) as X1. pose proof (each_layer_ok _ _ K2 _ _ _ Ei La) as X2. cbv beta in X1, X2. rewrite Vd in X1, X2. simpl in X1.
    split.
    + intros N. rewrite <- Vl, N in X1. discriminate X1.
    + intros J [B T]. rewrite Vb in B. rewrite Vt in T. apply J in B. apply J in T. subst pb pa. discriminate X2.
Qed.
(** sky130A: a pin shape of met1 to met5 makes the preparation fail *)
Definition sky_pin_layer (n : string) : bool :=
  match info_of (tech_of sky130A) n with
  | Some i => eqb (cl_name i) n && regular i &&
      match layer_at (tech_of sky130A) (cl_pair i) with
      | Some c => match cl_kind c, cl_purpose c with KPin, _ => false | _, PMetal => negb (some_b (table (res_layers (resistances_of sky130A)) (cl_orig c))) | _, _ => false end
      | None => false
      end
  | None => false
  end.
Lemma sky_pin_layers : forallb sky_pin_layer (map pr_pin sky130A_metal_pins) = true.
Proof. vm_compute. reflexivity. Qed.
Theorem C74_sky130A_pins_refuted : forall sub wire b amax merge skip blackbox db lid row l, db_wf db -> In row sky130A_metal_pins -> drawn_on db (pr_pin row) l ->
  r_tech sky130A sub wire b amax merge skip blackbox db lid = None.
Proof.
  intros sub wire b amax merge skip bb db lid row l wf I D. pose proof sky_pin_layers as K. rewrite forallb_forall in K. specialize (K _ (in_map pr_pin _ _ I)).
  unfold sky_pin_layer in K. destruct (info_of _ _) as [i|] eqn:Ei; [|discriminate]. apply andb_prop in K. destruct K as [K M]. apply andb_prop in K. destruct K as [K R].
  apply eqb_eq in K. destruct (layer_at _ _) as [c|] eqn:La; [|discriminate].
  eapply (r_fails _ _ _ _ _ _ _ _ _ _ wf l i c); try rewrite K; eauto using regular_shown.
  - destruct (cl_kind c); congruence.
  - destruct (cl_kind c), (cl_purpose c); congruence.
  - destruct (cl_kind c), (cl_purpose c); try discriminate M; destruct (table _ _); simpl in M; congruence.
Qed.

(** without blackboxed devices the contacts of a vertical parallel plate capacitor leave an empty via *)
Definition ids (p : gds) : nat := (Z.to_nat (fst p) * 300 + Z.to_nat (snd p))%nat.
Definition made (T : technology) (blackbox : bool) (ns : list string) : option (list (string * Z * Z) * list (string * Z)) :=
  match r_tech T SquareCounting SquareCounting 0%Qc 0%Qc 0%Qc false blackbox (db_on ns) ids with
  | Some r => Some (map (fun v => (vi_lvs v, Z.of_nat (vi_bottom v), Z.of_nat (vi_top v))) (rt_vias r), map (fun k => (co_lvs k, Z.of_nat (co_layer k))) (rt_conductors r))
  | None => None
  end.
Theorem C74_sky130A_stray_refuted : exists db r, db_wf db /\ labels_have_no_polygons sky130A db /\ r_tech sky130A SquareCounting SquareCounting 0%Qc 0%Qc 0%Qc false false db ids = Some r /\ exists v, In v (rt_vias r) /\ vi_lvs v = "" /\ vi_bottom v = vi_top v.
Proof.
  assert (K : made sky130A false ["mcon_vpp"; "li_con"] = Some ([("", 0, 0)], [("li_con", 20120)])%Z) by (vm_compute; reflexivity).
  exists (db_on ["mcon_vpp"; "li_con"]). unfold made in K. destruct (r_tech _ _ _ _ _ _ _ _ _ _) as [r|] eqn:E; [|discriminate]. exists r. split; [apply db_on_wf|].
  split; [|split; [reflexivity|]].
  - intros l c [<-|[<-|[]]] Ec Kc; exfalso; vm_compute in Ec; injection Ec as <-; discriminate Kc.
  - injection K as V _. destruct (rt_vias r) as [|v [|]]; try discriminate V. exists v. split; [left; reflexivity|]. injection V as A B C. split; [exact A|lia].
Qed.
(** the hypotheses can be met: poly, li1, met1 and met2 with their contacts in sky130A; Metal1 and Metal2 in IHP *)
Example C74_case :
  made sky130A true ["mcon_con"; "li_con"; "met1_con"; "via1_con"; "met2_con"; "licon_nsd_con"] =
    Some ([("mcon_con", 20120, 20420); ("licon_nsd_con", 27944, 20120)], [("li_con", 20120); ("met1_con", 20420); ("met2_con", 20720)])%Z /\
  made ihp true ["via1_drw"; "metal1_con"; "metal2_con"; "cont_poly_con"] =
    Some ([("via1_drw", 2400, 3000); ("cont_poly_con", 1500, 2400)], [("metal1_con", 2400); ("metal2_con", 3000)])%Z /\
  made sky130A true ["met1_con"; "met1_pin_con"] = None.
Proof. split; [|split]; vm_compute; reflexivity. Qed.

Print Assumptions C74_total.
Print Assumptions C74_metals.
Print Assumptions C74_vias.
Print Assumptions C74_no_stray.
Print Assumptions C74_sky130A_via1_refuted.
Print Assumptions C74_sky130A_pins_refuted.
Print Assumptions C74_sky130A_stray_refuted.
