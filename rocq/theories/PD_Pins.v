(** Theorems about the pins found with the shipped PDKs, for every LVS database. *)
From Coq Require Import String ZArith Lia.
From Verif Require Import PyBase PyLib SW_Model TI_Model LV_Model LV_Spec LV_Proofs LV_Props RQ_Model RQ_Spec PD_Model PD_Sky130A PD_Ihp PD_Spec PD_Proofs.
Local Open Scope string_scope.
Local Open Scope list_scope.

(** the GDS pairs that the LVS layers called [n] stand for, and the names that stand for a GDS pair *)
Definition names_of_pair (t : tech) (q : gds) : list string :=
  flat_map (fun i => match info_of t (cl_name i) with Some j => if eqb (cl_pair j) q then [cl_name i] else [] | None => [] end) (computed t).
Lemma names_of_pair_In t q n i : info_of t n = Some i -> cl_pair i = q -> In n (names_of_pair t q).
Proof.
  intros E P. destruct (info_In _ _ _ E) as [I N]. unfold names_of_pair. apply in_flat_map. exists i. split; [exact I|]. rewrite N, E, P, eqb_refl. left. reflexivity.
Qed.
(** all LVS layer names of a pair are the same *)
Definition one_name (t : tech) (q : gds) : bool :=
  match names_of_pair t q with [] => true | n :: r => forallb (fun m => eqb m n) r end.
Lemma one_name_ok t q : one_name t q = true -> forall n i n' i', info_of t n = Some i -> cl_pair i = q -> info_of t n' = Some i' -> cl_pair i' = q -> n = n'.
Proof.
  unfold one_name. intros O n i n' i' E P E' P'. pose proof (names_of_pair_In _ _ _ _ E P) as A. pose proof (names_of_pair_In _ _ _ _ E' P') as B.
  destruct (names_of_pair t q) as [|m r]; [destruct A|]. rewrite forallb_forall in O.
  assert (X : forall k, In k (m :: r) -> k = m) by (intros k [<-|I]; [reflexivity|apply eqb_eq, O, I]). rewrite (X _ A), (X _ B). reflexivity.
Qed.
Lemma filter_names (P : nat * lvslayer -> bool) l : subseq (map (fun e => lv_name (snd e)) (filter P l)) (map (fun e => lv_name (snd e)) l).
Proof. induction l as [|e l IH]; simpl; [constructor|]. destruct (P e); simpl; constructor; exact IH. Qed.
Lemma enumerate_snd {A} (l : list A) : map snd (enumerate l) = l.
Proof. unfold enumerate. generalize 0%nat. induction l as [|x l IH]; intros n; simpl; [reflexivity|]. rewrite IH. reflexivity. Qed.
Lemma sources_names t b db q : NoDup (map lv_name (db_layers db)) -> NoDup (map x_name (sources t b db q)).
Proof.
  intros N. unfold sources. rewrite map_map. simpl. eapply subseq_NoDup; [apply filter_names|].
  rewrite <- (map_map snd lv_name), enumerate_snd. exact N.
Qed.
Lemma sources_le1 t b db q : NoDup (map lv_name (db_layers db)) -> one_name t q = true -> (List.length (sources t b db q) <= 1)%nat.
Proof.
  intros N O. pose proof (sources_names t b db q N) as D. destruct (sources t b db q) as [|x [|y r]] eqn:S; simpl; try lia. exfalso.
  destruct (source_info t b db q x) as (l & i & _ & _ & E & _ & P & Nx & _); [rewrite S; left; reflexivity|].
  destruct (source_info t b db q y) as (l' & i' & _ & _ & E' & _ & P' & Ny & _); [rewrite S; right; left; reflexivity|].
  simpl in D. apply NoDup_cons_iff in D. destruct D as [Nin _]. apply Nin. left. rewrite Nx, Ny. symmetry. exact (one_name_ok t q O _ _ _ _ E P E' P').
Qed.
Lemma source_In t b db q l i : In l (db_layers db) -> db_shapes db (lv_index l) <> [] -> info_of t (lv_name l) = Some i -> hidden b i = false -> cl_pair i = q ->
  exists x, In x (sources t b db q) /\ x_name x = lv_name l /\ x_shapes x = db_shapes db (lv_index l).
Proof.
  intros I Ne E Hd P. apply In_nth_error in I. destruct I as [k Nt]. exists (XLayer k (lv_name l) q (db_shapes db (lv_index l))). split; [|auto].
  unfold sources. apply in_map_iff. exists (k, l). split; [reflexivity|]. apply filter_In. split; [apply enumerate_nth; exact Nt|].
  unfold belongs, has_shapes. simpl. rewrite E, Hd, P, eqb_refl. destruct (db_shapes db (lv_index l)); [congruence|reflexivity].
Qed.
Lemma used_In t b db l i : In l (db_layers db) -> db_shapes db (lv_index l) <> [] -> info_of t (lv_name l) = Some i -> hidden b i = false ->
  In (cl_pair i) (used_pairs t b db).
Proof.
  intros I Ne E Hd. unfold used_pairs. apply distinct_In, in_flat_map. exists l. split; [exact I|]. rewrite E, Hd. unfold has_shapes.
  destruct (db_shapes db (lv_index l)); [congruence|left; reflexivity].
Qed.

(** the pin layers of all layers of the technology stand for one LVS layer each *)
Definition pins_one (t : tech) : bool := forallb (fun l => one_name t (tl_pin l)) (layers t).
Lemma pins_total : forall t b db labels inside lid, pins_one t = true -> db_wf db -> NoDup (map lv_name (db_layers db)) ->
  exists d, pins_by_layer t b db labels inside lid = Some d.
Proof.
  intros t b db lb ins lid O wf N. destruct (pins_by_layer t b db lb ins lid) as [d|] eqn:E; [eauto|]. exfalso.
  apply (C68_fails t b db lb ins lid wf) in E. destruct E as (q & p & _ & _ & L). unfold pin_sources in L.
  destruct (layer_of t p) as [l|] eqn:F; [|simpl in L; lia]. unfold layer_of in F. apply last_such_In in F. destruct F as [F _].
  unfold pins_one in O. rewrite forallb_forall in O. pose proof (sources_le1 t b db (tl_pin l) N (O l F)). lia.
Qed.
Definition regular (i : clayer) : bool := match cl_kind i with KResistor | KCapacitor => false | _ => true end.
Lemma regular_shown b i : regular i = true -> hidden b i = false.
Proof. unfold regular, hidden. destruct b, (cl_kind i); simpl; congruence. Qed.
Definition row_ok (t : tech) (row : pinrow) : bool :=
  match info_of t (pr_metal row), info_of t (pr_pin row), layer_of t (pr_drawn row) with
  | Some im, Some ip, Some l => regular im && regular ip && eqb (pin_target t (cl_pair im)) (Some (pr_drawn row)) && eqb (cl_pair ip) (tl_pin l) &&
                                eqb (tl_label l) (pr_label row) && one_name t (tl_pin l)
  | _, _, _ => false
  end.
Lemma row_reported T row : pins_one (tech_of T) = true -> row_ok (tech_of T) row = true -> pin_reported T row.
Proof.
  intros O K b db lb ins lid lm lp s tx wf N (Im & Nm & Sm) (Ip & Np & Sp) Is It In_. destruct (pins_total _ b db lb ins lid O wf N) as (d & E).
  unfold row_ok in K. rewrite <- Nm, <- Np in K. destruct (info_of _ (lv_name lm)) as [im|] eqn:Em; [|discriminate]. destruct (info_of _ (lv_name lp)) as [ip|] eqn:Ep; [|discriminate].
  destruct (layer_of _ _) as [l|] eqn:El; [|discriminate]. repeat (apply andb_prop in K; destruct K as [K ?]).
  repeat match goal with H : eqb _ _ = true |- _ => apply eqb_eq in H end.
  pose proof (used_In _ b db lm im Im Sm Em (regular_shown b im ltac:(assumption))) as U.
  destruct (source_In _ b db (tl_pin l) lp ip Ip Sp Ep (regular_shown b ip ltac:(assumption)) ltac:(assumption)) as (x & Ix & _ & Xs).
  assert (Ps : pin_sources (tech_of T) b db (pr_drawn row) = [x]).
  { unfold pin_sources. rewrite El. pose proof (sources_le1 (tech_of T) b db (tl_pin l) N ltac:(assumption)) as L.
    destruct (sources _ b db (tl_pin l)) as [|y [|z r]]; simpl in *; [contradiction| |lia]. destruct Ix as [->|[]]. reflexivity. }
  destruct (C68_complete (tech_of T) _ _ _ _ _ wf d (cl_pair im) (pr_drawn row) tx s E U ltac:(assumption)) as (ps & v & Dg & Iv & Lv & Pv & _).
  - unfold texts_of. rewrite El. congruence.
  - rewrite Ps. simpl. rewrite app_nil_r, Xs. exact Is.
  - exact In_.
  - destruct (C68_sound _ _ _ _ _ _ wf d (pr_drawn row) ps v E Dg Iv) as (_ & (s' & Is' & In' & Net) & _).
    rewrite Ps in Is'. simpl in Is'. rewrite app_nil_r, Xs in Is'. exists d, ps, v, s'. rewrite Pv in In'. repeat split; auto.
Qed.

(** ** C73: pins *)
(** the preparation of the pins never fails *)
Theorem C73_total : forall T blackbox db labels inside lid, shipped T -> db_wf db -> NoDup (map lv_name (db_layers db)) ->
  exists d, pins_by_layer (tech_of T) blackbox db labels inside lid = Some d.
Proof. intros T b db lb ins lid [-> | ->] wf N; apply pins_total; auto; vm_compute; reflexivity. Qed.
Print Assumptions C73_total.
(** on all metals of ihp_sg13g2, and on poly and li1 of sky130A, every label on a pin shape is reported *)
Theorem C73_ihp : forall row, In row ihp_pins -> pin_reported ihp row.
Proof.
  intros row I. apply row_reported; [vm_compute; reflexivity|].
  assert (F : forallb (row_ok (tech_of ihp)) ihp_pins = true) by (vm_compute; reflexivity). rewrite forallb_forall in F. exact (F row I).
Qed.
Print Assumptions C73_ihp.
Theorem C73_sky130A_partial : forall row, In row sky130A_lower_pins -> pin_reported sky130A row.
Proof.
  intros row I. apply row_reported; [vm_compute; reflexivity|].
  assert (F : forallb (row_ok (tech_of sky130A)) sky130A_lower_pins = true) by (vm_compute; reflexivity). rewrite forallb_forall in F. exact (F row I).
Qed.
Print Assumptions C73_sky130A_partial.
(** on met1 to met5 of sky130A no label ever becomes a pin: each pin layer is declared a second time, as a label layer *)
Theorem C73_sky130A_metals : forall row blackbox db labels inside lid d, In row sky130A_metal_pins -> db_wf db ->
  pins_by_layer (tech_of sky130A) blackbox db labels inside lid = Some d -> dget d (pr_drawn row) = None.
Proof.
  intros row b db lb ins lid d I wf E. rewrite (C68_pins _ _ _ _ _ _ wf d E). 
  assert (F : forallb (fun row => match layer_of (tech_of sky130A) (pr_drawn row) with
                                  | Some l => match names_of_pair (tech_of sky130A) (tl_pin l) with [] => true | _ => false end
                                  | None => true end) sky130A_metal_pins = true) by (vm_compute; reflexivity).
  rewrite forallb_forall in F. specialize (F row I).
  assert (Ps : pin_sources (tech_of sky130A) b db (pr_drawn row) = []).
  { unfold pin_sources. destruct (layer_of _ _) as [l|]; [|reflexivity]. apply sources_none. intros n i Ei _ P. apply (names_of_pair_In _ _ _ _ Ei) in P.
    destruct (names_of_pair _ _); [destruct P|discriminate]. }
  unfold expected_pins. rewrite Ps. simpl.
  assert (Z : forall (A B : Type) (l : list A), flat_map (fun _ => @nil B) l = []) by (induction l; simpl; auto).
  assert (Z2 : forall q, flat_map (pin_for (tech_of sky130A) ins lid q []) (texts_of (tech_of sky130A) lb (pr_drawn row)) = []).
  { intros q. induction (texts_of _ _ _); simpl; auto. }
  induction (used_pairs (tech_of sky130A) b db) as [|q qs IH]; [reflexivity|]. cbn [flat_map].
  destruct (eqb _ _); [|exact IH]. rewrite Z2, Z. exact IH.
Qed.
Print Assumptions C73_sky130A_metals.
Definition pin_square : LV_Model.poly := LV_Model.Poly [(0, 0); (0, 10); (10, 10); (10, 0)]%Z [].
Definition in_box (p : LV_Model.poly) (x : point) : bool := ((0 <=? fst x) && (fst x <=? 10) && (0 <=? snd x) && (snd x <=? 10))%Z%bool.
Definition pin_db (row : pinrow) : lvsdb := LvsDB [LvsLayer 0 (pr_metal row) None; LvsLayer 1 (pr_pin row) None] (fun _ => [(pin_square, "A")]).
Definition pin_labels (row : pinrow) (q : gds) : list (string * point) := if eqb q (pr_label row) then [("IN", (5, 5)%Z)] else [].
Theorem C73_sky130A_refuted : forall row, In row sky130A_metal_pins -> ~ pin_reported sky130A row.
Proof.
  intros row I P.
  assert (W : db_wf (pin_db row)) by (unfold db_wf; simpl; repeat constructor; simpl; intuition discriminate).
  assert (N : pr_metal row <> pr_pin row) by (simpl in I; repeat (destruct I as [<-|I]; [discriminate|]); destruct I).
  specialize (P true (pin_db row) (pin_labels row) in_box (fun _ => 0%nat) (LvsLayer 0 (pr_metal row) None) (LvsLayer 1 (pr_pin row) None) (pin_square, "A") ("IN", (5, 5)%Z) W).
  destruct P as (d & ps & v & s' & E & G & _).
  - simpl. constructor; [simpl; intuition congruence|repeat constructor; intros []].
  - repeat split; simpl; auto. discriminate.
  - repeat split; simpl; auto. discriminate.
  - simpl. auto.
  - unfold pin_labels. rewrite eqb_refl. left. reflexivity.
  - reflexivity.
  - pose proof (C73_sky130A_metals row true _ _ _ _ d I W E) as X. congruence.
Qed.
Print Assumptions C73_sky130A_refuted.
(** the hypotheses can be met, and the pin is found *)
Example C73_case :
  option_map (map (fun e => (fst e, map (fun v => (pin_label v, pin_net v)) (snd e))))
    (pins_by_layer (tech_of ihp) true (pin_db (nth 5 ihp_pins (PinRow "" "" (0, 0)%Z (0, 0)%Z))) (pin_labels (nth 5 ihp_pins (PinRow "" "" (0, 0)%Z (0, 0)%Z))) in_box (fun _ => 0%nat)) =
    Some [((67, 0)%Z, [("IN", "A")])] /\
  option_map (map (fun e => (fst e, map (fun v => (pin_label v, pin_net v)) (snd e))))
    (pins_by_layer (tech_of sky130A) true (pin_db (nth 0 sky130A_metal_pins (PinRow "" "" (0, 0)%Z (0, 0)%Z))) (pin_labels (nth 0 sky130A_metal_pins (PinRow "" "" (0, 0)%Z (0, 0)%Z))) in_box (fun _ => 0%nat)) =
    Some [].
Proof. vm_compute. auto. Qed.
