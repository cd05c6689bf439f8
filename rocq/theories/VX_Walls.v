(** Layers as calls of the sweep, and the entries for vertical planes, for C105. *)
From Coq Require Import ZArith Reals QArith.Qround String List Permutation Lra Lia.
From Flocq Require Import Core.Core IEEE754.BinarySingleNaN.
From Verif Require Import PyBase PyLib FP_Model FP_Spec FP_Props TG_Model TG_Spec TG_Proofs TG_Props ST_Spec GF_Spec VX_Model VX_Spec VX_Geo.
From Verif Require SW_Model SW_Spec SW_Run VX_Sweep.
Import ListNotations.
Local Close Scope Qc_scope.
Local Open Scope list_scope.

(** ** Units *)
Lemma floor_near (q : Q) (k : Z) : (inject_Z k <= q)%Q -> (q < inject_Z (k + 1))%Q -> Qfloor q = k.
Proof.
  intros L U. pose proof (Qfloor_le q) as A. pose proof (Qlt_floor q) as B.
  assert (H1 : (inject_Z k < inject_Z (Qfloor q + 1))%Q) by (eapply Qle_lt_trans; eassumption).
  assert (H2 : (inject_Z (Qfloor q) < inject_Z (k + 1))%Q) by (eapply Qle_lt_trans; eassumption).
  rewrite <- Zlt_Qlt in H1, H2. lia.
Qed.
Lemma norm_units k x : (this x == inject_Z k)%Q -> SW_Model.z2norm 1%Qc x = k.
Proof.
  intros E. unfold SW_Model.z2norm.
  assert (V : (this (x / 1 + Q2Qc (1 # 1000000))%Qc == inject_Z k + (1 # 1000000))%Q).
  { unfold Qcplus, Qcdiv, Qcmult, Qcinv. cbn [this Q2Qc]. rewrite !Qred_correct, E. unfold Qinv. cbn [this Qnum Qden]. setoid_replace (inject_Z k * (1 # 1))%Q with (inject_Z k) by ring. reflexivity. }
  rewrite (Qfloor_comp _ _ V). apply floor_near.
  - rewrite <- (Qplus_0_r (inject_Z k)) at 1. apply Qplus_le_r. discriminate.
  - rewrite inject_Z_plus. apply Qplus_lt_r. reflexivity.
Qed.
Lemma units_value k : (this (units k) == inject_Z k)%Q. Proof. unfold units. cbn [this Q2Qc]. apply Qred_correct. Qed.
Lemma units_sum a b : (this (units a + units (b - a))%Qc == inject_Z b)%Q.
Proof. unfold Qcplus. cbn [this Q2Qc]. rewrite Qred_correct, !units_value, <- inject_Z_plus. replace (a + (b - a))%Z with b by lia. reflexivity. Qed.

(** ** Layers *)
Definition as_call (l : layer) : @SW_Model.call cell :=
  match l with
  | Material m _ => SW_Model.AddMaterial m
  | Body (Net n) r a b => SW_Model.AddConductor n r (units a) (units (b - a))
  | Body (Mat m) r a b => SW_Model.AddDielectric m r (units a) (units (b - a))
  end.
Lemma means_units n d c l : means n d c l -> to_units (lit n d) c = Some (as_call l).
Proof.
  intros [m k|net r z h a b (e & e' & -> & -> & U & U' & E & E')|m r z h a b (e & e' & -> & -> & U & U' & E & E')]; cbn [to_units as_call]; [reflexivity| |];
    rewrite (C91_span n d e e' a b U U' E E'); reflexivity.
Qed.
Lemma all_means n d cs ls : Forall2 (means n d) cs ls -> all_units (lit n d) cs = Some (map as_call ls).
Proof. induction 1 as [|c l cs ls M F IH]; cbn [all_units map]; [reflexivity|]. rewrite (means_units _ _ _ _ M), IH. reflexivity. Qed.
Lemma values_means n d cs ls : Forall2 (means n d) cs ls -> VX_Model.permittivities cs = values ls.
Proof.
  unfold VX_Model.permittivities, values. intros F. generalize (@nil (string * Qc)). induction F as [|c l cs ls M F IH]; intros x; cbn [fold_left]; [reflexivity|].
  rewrite IH. destruct M; reflexivity.
Qed.
Section Layers.
Variable ls : list layer.
Notation us := (map as_call ls).
Lemma adds_as l k : SW_Spec.call_adds 1%Qc (as_call l) k = match l with Body who r a b => if eqb who k then Some (r, a, b) else None | Material _ _ => None end.
Proof.
  destruct l as [m v|[n|m] r a b], k as [n'|m']; cbn [as_call SW_Spec.call_adds]; try reflexivity;
    rewrite ?(norm_units a _ (units_value a)), ?(norm_units b _ (units_sum a b)).
  - destruct (eqb n n') eqn:E.
    + apply eqb_eq in E. subst. rewrite eqb_refl. reflexivity.
    + apply eqb_neq in E. destruct (eqb (Net n) (Net n')) eqn:F; [apply eqb_eq in F; congruence|reflexivity].
  - destruct (eqb m m') eqn:E.
    + apply eqb_eq in E. subst. rewrite eqb_refl. reflexivity.
    + apply eqb_neq in E. destruct (eqb (Mat m) (Mat m')) eqn:F; [apply eqb_eq in F; congruence|reflexivity].
Qed.
Lemma existsb_map {A B} (f : A -> B) (p : B -> bool) l : existsb p (map f l) = existsb (fun x => p (f x)) l.
Proof. induction l; cbn; [reflexivity|]. f_equal. assumption. Qed.
Lemma existsb_same {A} (p q : A -> bool) l : (forall x, p x = q x) -> existsb p l = existsb q l.
Proof. intros E. induction l; cbn; [reflexivity|]. rewrite E. f_equal. assumption. Qed.
Lemma present_as z p k : SW_Spec.present_above 1%Qc us z p k = present ls (p, z) k.
Proof.
  unfold SW_Spec.present_above, present. rewrite existsb_map. apply existsb_same. intros l. rewrite adds_as. destruct l as [m v|who r a b]; cbn [fills fst snd]; [reflexivity|].
  destruct (eqb who k); cbn [andb]; reflexivity.
Qed.
Lemma present_as_below z p k : SW_Spec.present_below 1%Qc us z p k = present ls (p, (z - 1)%Z) k.
Proof.
  unfold SW_Spec.present_below, present. rewrite existsb_map. apply existsb_same. intros l. rewrite adds_as. destruct l as [m v|who r a b]; cbn [fills fst snd]; [reflexivity|].
  destruct (eqb who k); cbn [andb]; [|reflexivity]. f_equal. f_equal; apply eq_true_iff_eq; rewrite ?Z.ltb_lt, ?Z.leb_le; lia.
Qed.
Lemma nets_as : SW_Spec.nets_of us = nets ls.
Proof. unfold SW_Spec.nets_of, nets. f_equal. induction ls as [|[m v|[n|m] r a b] t IH]; cbn; f_equal; assumption || exact IH. Qed.
Lemma materials_as : SW_Spec.materials_of us = declared ls.
Proof. unfold SW_Spec.materials_of, declared. f_equal. induction ls as [|[m v|[n|m] r a b] t IH]; cbn; f_equal; assumption || exact IH. Qed.
Lemma priority_as : SW_Spec.priority us = everyone ls.
Proof. unfold SW_Spec.priority, everyone. rewrite nets_as, materials_as. reflexivity. Qed.
Lemma find_same {A} (p q : A -> bool) l : (forall x, p x = q x) -> find p l = find q l.
Proof. intros E. induction l; cbn; [reflexivity|]. rewrite E, IHl. reflexivity. Qed.
Lemma owner_as z p : SW_Spec.owner_above 1%Qc us z p = owner ls (p, z).
Proof. unfold SW_Spec.owner_above, owner. rewrite priority_as. apply find_same. intros k. apply present_as. Qed.
Lemma owner_as_below z p : SW_Spec.owner_below 1%Qc us z p = owner ls (p, (z - 1)%Z).
Proof. unfold SW_Spec.owner_below, owner. rewrite priority_as. apply find_same. intros k. apply present_as_below. Qed.
Hypothesis near : Forall layer_near ls.
Lemma call_near c k r a b : In c us -> SW_Spec.call_adds 1%Qc c k = Some (r, a, b) -> Forall cell_near r /\ (Z.abs a < 1000000)%Z /\ (Z.abs b < 1000000)%Z.
Proof.
  intros I E. apply in_map_iff in I. destruct I as (l & <- & I). rewrite adds_as in E. destruct l as [m v|who r' a' b']; [discriminate|].
  destruct (eqb who k); [|discriminate]. injection E as -> -> ->. rewrite Forall_forall in near. exact (near _ I).
Qed.
Lemma level_near z : SW_Spec.is_level 1%Qc us z -> (Z.abs z < 1000000)%Z.
Proof. intros (c & k & r & a & b & I & E & [-> | ->]); apply (call_near _ _ _ _ _ I E). Qed.
Lemma shape_near p : VX_Sweep.in_shape 1%Qc us p -> cell_near p.
Proof. intros (c & k & r & a & b & I & E & J). destruct (call_near _ _ _ _ _ I E) as [N _]. rewrite Forall_forall in N. apply N, J. Qed.
Definition piece_near (b : piece) : Prop := forall d, edge_ok (edge_of (b, d)).
Lemma pieces_near b : In b (all_pieces us) -> piece_near b.
Proof.
  unfold all_pieces. rewrite nodup_In, in_flat_map. intros (c & I & J) d. apply in_flat_map in I. destruct I as (cl & I & S).
  assert (N : cell_near c).
  { apply in_map_iff in I. destruct I as (l & <- & I). rewrite Forall_forall in near. specialize (near _ I). destruct l as [m v|[n|m] r a b0]; [destruct S| |];
      cbn in S; destruct near as [N _]; rewrite Forall_forall in N; apply N, S. }
  destruct c as [x y]. destruct N as [N1 N2]. cbn [fst snd] in N1, N2. split.
  - unfold axis_parallel. rewrite edge_dx, edge_dy. unfold axis. cbn [fst snd]. destruct J as [<-|[<-|[<-|[<-|[]]]]], d; lia.
  - unfold p_near, near_origin. destruct J as [<-|[<-|[<-|[<-|[]]]]], d; cbn [edge_of fst snd p1 p2]; lia.
Qed.
End Layers.

(** ** Boxes of units *)
Lemma range_In a b k : In k (range a b) <-> (a <= k < b)%Z.
Proof.
  unfold range. rewrite in_map_iff. split.
  - intros (i & <- & I). apply in_seq in I. lia.
  - intros H. exists (Z.to_nat (k - a)). split; [lia|]. apply in_seq. lia.
Qed.
Definition pos (e : piece * bool) : Z := if snd e then start (fst e) else (- start (fst e) - 1)%Z.
Lemma unit_box along n d e a b : whole_exact along -> (0 < n)%Z -> short n d -> piece_near (fst e) -> near_origin a -> near_origin b -> (a < b)%Z ->
  exists bx, v_surface (lit n d) along (norm2z (lit n d) a) (norm2z (lit n d) b) (edge_of e) = Some bx /\
    forall c, In c (box_cells bx) <-> fst c = pos e /\ (a <= snd c < b)%Z.
Proof.
  intros W N S PN A B L. destruct e as [p dr]. specialize (PN dr). cbn [fst] in PN.
  unfold v_surface. unfold near_origin in A, B.
  rewrite (proj1 (C91_meet n d a N S ltac:(lia))), (proj1 (C91_meet n d b N S ltac:(lia))). eexists. split; [reflexivity|].
  intros [x y]. cbv beta iota delta [box_cells]. etransitivity; [apply in_prod_iff|]. rewrite !range_In. cbn [fst snd].
  rewrite !(along_ok _ _ _ W PN). unfold origin_x, origin_y. rewrite edge_dx, edge_dy. unfold axis, pos. cbn [fst snd].
  destruct p as [px py|px py], dr; cbn [edge_of fst snd p1 p2 start Z.eqb Z.sgn]; lia.
Qed.

(** ** Planes of units *)
Definition lid (e : piece * bool) : bool * Z * bool := (axis e, line_at e, snd e).
Lemma Beqb_val x y : is_finite x = true -> is_finite y = true -> (Beqb x y = true <-> val x = val y).
Proof. intros F G. rewrite (Beqb_correct prec emax x y F G). split; intros E; [|now apply Raux.Req_bool_true]. destruct (Raux.Req_bool_spec (val x) (val y)); congruence. Qed.
Lemma plane_lid e e' : piece_near (fst e) -> piece_near (fst e') -> (plane_eqb (v_plane (edge_of e)) (v_plane (edge_of e')) = true <-> lid e = lid e').
Proof.
  intros N N'. destruct e as [p dr], e' as [p' dr']. specialize (N dr). specialize (N' dr'). cbn [fst] in N, N'.
  transitivity (same_plane (v_plane (edge_of (p, dr))) (v_plane (edge_of (p', dr')))).
  - destruct (plane_ok _ N) as ([F1 _] & [F2 _] & [F3 _] & [F4 _]). destruct (plane_ok _ N') as ([F1' _] & [F2' _] & [F3' _] & [F4' _]).
    unfold plane_eqb, same_plane. rewrite !andb_true_iff, !Beqb_val by assumption. tauto.
  - rewrite (C94_plane _ _ N N'). unfold same_line, lid. rewrite !edge_dx, !edge_dy. unfold axis, line_at. cbn [fst snd].
    destruct p as [px py|px py], p' as [px' py'|px' py'], dr, dr'; cbn [edge_of fst snd p1 p2 Z.sgn];
      split; intros H; try (exfalso; (discriminate H || lia)); try (f_equal; f_equal; lia); injection H; intros; subst; repeat split; lia.
Qed.

(** ** Entries *)
Section Entries.
Context {K : Type} {EK : EqDec K}.
Notation item := (K * (piece * bool) * Z * Z)%type.
Notation entry := (K * (piece * bool) * list cell)%type.
Definition ekey (x : entry) : K * (bool * Z * bool) := (fst (fst x), lid (snd (fst x))).
Definition vkey (v : item) : K * (bool * Z * bool) := let '(k, e, _, _) := v in (k, lid e).
Definition in_item (c : cell) (v : item) : Prop := let '(_, e, z, zz) := v in fst c = pos e /\ (z <= snd c < zz)%Z.
Definition item_ok (v : item) : Prop := let '(_, e, z, zz) := v in piece_near (fst e) /\ near_origin z /\ near_origin zz /\ (z < zz)%Z.
Definition entry_near (x : entry) : Prop := piece_near (fst (snd (fst x))).
Record known (l : list item) (d : list entry) : Prop := Known {
  kn_keys : NoDup (map ekey d);
  kn_near : forall x, In x d -> entry_near x;
  kn_from : forall x, In x d -> exists v, In v l /\ vkey v = ekey x;
  kn_cells : forall x c, In x d -> (In c (snd x) <-> exists v, In v l /\ vkey v = ekey x /\ in_item c v);
  kn_all : forall v, In v l -> exists x, In x d /\ ekey x = vkey v }.
Lemma insert_cases (d : list entry) k e box : (forall x, In x d -> entry_near x) -> piece_near (fst e) ->
  (exists d1 x d2, d = d1 ++ x :: d2 /\ ekey x = (k, lid e) /\ insert d k e box = d1 ++ (fst x, snd x ++ box) :: d2) \/
  (~ In (k, lid e) (map ekey d) /\ insert d k e box = d ++ [(k, e, box)]).
Proof.
  intros N Ne. induction d as [|[[k' e'] r] d IH]; cbn [insert].
  - right. split; [intros []|reflexivity].
  - assert (N' : piece_near (fst e')) by (apply (N (k', e', r)); now left).
    pose proof (plane_lid e e' Ne N') as P. destruct (eqb k k' && plane_eqb (v_plane (edge_of e)) (v_plane (edge_of e'))) eqn:E.
    + apply andb_true_iff in E. destruct E as [E1 E2]. apply eqb_eq in E1. apply P in E2. left. exists [], (k', e', r), d. unfold ekey. cbn [fst snd app]. rewrite E1, E2. auto.
    + assert (Ne' : (k, lid e) <> ekey (k', e', r)).
      { unfold ekey. cbn [fst snd]. intros Q. pose proof (f_equal fst Q) as Q1. pose proof (f_equal snd Q) as Q2. cbn [fst snd] in Q1, Q2. apply P in Q2. rewrite Q1, eqb_refl, Q2 in E. discriminate. }
      destruct IH as [(d1 & x & d2 & -> & Q & ->)|[Q ->]]; [intros x I; apply N; now right| |].
      * left. exists ((k', e', r) :: d1), x, d2. auto.
      * right. split; [|reflexivity]. intros [I|I]; [congruence|apply Q, I].
Qed.
Lemma insert_known l d k e z zz box : known l d -> item_ok (k, e, z, zz) -> (forall c, In c box <-> in_item c (k, e, z, zz)) -> known (l ++ [(k, e, z, zz)]) (insert d k e box).
Proof.
  intros [K1 K2 K3 K4 K5] (PN & _) B. set (v := (k, e, z, zz)) in *.
  destruct (insert_cases d k e box K2 PN) as [(d1 & x & d2 & -> & Q & ->)|[Q ->]].
  - assert (Kx : vkey v = ekey x) by (rewrite Q; reflexivity).
    assert (Same : map ekey (d1 ++ (fst x, snd x ++ box) :: d2) = map ekey (d1 ++ x :: d2)) by (rewrite !map_app; reflexivity).
    assert (Ix : In x (d1 ++ x :: d2)) by (apply in_or_app; right; now left).
    assert (U : forall y, In y d1 \/ In y d2 -> ekey y <> ekey x).
    { intros y I Ey. rewrite map_app in K1. cbn [map] in K1. apply NoDup_remove_2 in K1. apply K1. rewrite <- Ey, <- map_app. apply in_map, in_or_app. tauto. }
    assert (Old : forall y, In y (d1 ++ (fst x, snd x ++ box) :: d2) -> y = (fst x, snd x ++ box) \/ (In y (d1 ++ x :: d2) /\ ekey y <> ekey x)).
    { intros y I. apply in_app_or in I. destruct I as [I|[<-|I]]; [right|left; reflexivity|right]; (split; [apply in_or_app; auto using in_cons|apply U; auto]). }
    split.
    + rewrite Same. exact K1.
    + intros y I. apply Old in I. destruct I as [->|[I _]]; [apply (K2 x Ix)|apply K2, I].
    + intros y I. apply Old in I. destruct I as [->|[I _]].
      * exists v. split; [apply in_or_app; right; now left|exact Kx].
      * destruct (K3 y I) as (w & J & E). exists w. split; [apply in_or_app; now left|exact E].
    + intros y c I. apply Old in I. destruct I as [->|[I Ny]]; cbn [snd].
      * rewrite in_app_iff, (K4 x c Ix), B. split.
        -- intros [(w & J & E & C)|C]; [exists w; split; [apply in_or_app; now left|auto]|exists v; split; [apply in_or_app; right; now left|auto]].
        -- intros (w & J & E & C). apply in_app_or in J. destruct J as [J|[<-|[]]]; [left; exists w; auto|right; exact C].
      * rewrite (K4 y c I). split; intros (w & J & E & C); exists w; (split; [|auto]).
        -- apply in_or_app. now left.
        -- apply in_app_or in J. destruct J as [J|[<-|[]]]; [exact J|]. congruence.
    + intros w J. apply in_app_or in J. destruct J as [J|[<-|[]]].
      * destruct (K5 w J) as (y & I & E). apply in_app_or in I. destruct I as [I|[<-|I]].
        -- exists y. split; [apply in_or_app; now left|exact E].
        -- exists (fst x, snd x ++ box). split; [apply in_or_app; right; now left|exact E].
        -- exists y. split; [apply in_or_app; right; now right|exact E].
      * exists (fst x, snd x ++ box). split; [apply in_or_app; right; now left|symmetry; exact Kx].
  - assert (Q' : forall w, In w l -> vkey w <> (k, lid e)).
    { intros w J E. destruct (K5 w J) as (y & I & Ey). apply Q. rewrite <- E, <- Ey. apply in_map, I. }
    split.
    + rewrite map_app. cbn [map]. apply Permutation_NoDup with (l := (k, lid e) :: map ekey d); [apply Permutation_cons_append|]. constructor; assumption.
    + intros y I. apply in_app_or in I. destruct I as [I|[<-|[]]]; [apply K2, I|exact PN].
    + intros y I. apply in_app_or in I. destruct I as [I|[<-|[]]].
      * destruct (K3 y I) as (w & J & E). exists w. split; [apply in_or_app; now left|exact E].
      * exists v. split; [apply in_or_app; right; now left|reflexivity].
    + intros y c I. apply in_app_or in I. destruct I as [I|[<-|[]]].
      * rewrite (K4 y c I). split; intros (w & J & E & C); exists w; (split; [|auto]).
        -- apply in_or_app. now left.
        -- apply in_app_or in J. destruct J as [J|[<-|[]]]; [exact J|]. exfalso. apply Q. change (vkey v) with (k, lid e) in E. rewrite E. apply in_map, I.
      * cbn [snd]. rewrite B. split.
        -- intros C. exists v. split; [apply in_or_app; right; now left|split; [reflexivity|exact C]].
        -- intros (w & J & E & C). apply in_app_or in J. destruct J as [J|[<-|[]]]; [|exact C]. destruct (Q' w J E).
    + intros w J. apply in_app_or in J. destruct J as [J|[<-|[]]].
      * destruct (K5 w J) as (y & I & E). exists y. split; [apply in_or_app; now left|exact E].
      * exists (k, e, box). split; [apply in_or_app; right; now left|reflexivity].
Qed.
Lemma insert_all_known along n d (l : list item) : whole_exact along -> (0 < n)%Z -> short n d -> Forall item_ok l ->
  exists es, insert_all (lit n d) along l [] = Some es /\ known l es.
Proof.
  intros W N S. enough (H : forall l0 es0, known l0 es0 -> Forall item_ok l -> exists es, insert_all (lit n d) along l es0 = Some es /\ known (l0 ++ l) es).
  { intros F. destruct (H [] []) as (es & E & Kn); [split; cbn; intros; try contradiction; constructor|exact F|]. exists es. auto. }
  induction l as [|[[[k e] z] zz] l IH]; intros l0 es0 Kn F; cbn [insert_all].
  - exists es0. rewrite app_nil_r. auto.
  - inversion F as [|? ? O F']; subst. destruct O as (PN & A & B & L).
    destruct (unit_box along n d e z zz W N S PN A B L) as (bx & -> & C).
    destruct (IH (l0 ++ [(k, e, z, zz)]) (insert es0 k e (box_cells bx))) as (es & E & Kn').
    + apply insert_known; [exact Kn|exact (conj PN (conj A (conj B L)))|]. intros c. rewrite C. reflexivity.
    + exact F'.
    + exists es. rewrite <- app_assoc in Kn'. auto.
Qed.
End Entries.
