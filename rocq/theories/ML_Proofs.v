From Coq Require Import String ZArith Lia Lqa.
From Verif Require Import PyBase PyLib PyStr QcLra MG_Model MG_Spec ML_Model ML_Spec.
From Verif Require MG_Proofs MG_Run.
From Verif Require NX_Model.
Local Open Scope string_scope.
Local Open Scope list_scope.

(** ** numbers *)
Section Num.
Variables (to_int : Qc -> Z) (dbu : Qc).
Hypotheses (C : casts to_int) (P : 0 < dbu).

Lemma dbu_neq : dbu <> 0.
Proof using P. clear C. intros ->. exact (Qclt_not_le _ _ P (Qcle_refl 0)). Qed.
Lemma coord_um z : coord dbu z * dbu = micro z.
Proof using P.
  clear C. unfold coord, micro.
  transitivity (Q2Qc (inject_Z z) / Q2Qc (200 # 1)); [field; split; [intros H; discriminate H|apply dbu_neq]|].
  unfold Qcdiv. replace (/ Q2Qc (200 # 1)) with (Q2Qc (1 # 200)) by (apply Qc_is_canon; reflexivity).
  apply Qc_is_canon. rewrite this_mult, !this_Q2Qc. unfold Qeq. cbn. lia.
Qed.
Lemma micro_le a b : (a <= b)%Z -> micro a <= micro b.
Proof using. clear. intros H. unfold micro, Qcle. rewrite !this_Q2Qc. unfold Qle. cbn. lia. Qed.
Lemma um_le a b : (a <= b)%Z -> um dbu a <= um dbu b.
Proof using P.
  clear C. intros H. unfold um. apply Qcmult_le_compat_r; [|now apply Qclt_le_weak].
  unfold Qcle. rewrite !this_Q2Qc. unfold Qle. cbn. lia.
Qed.
Lemma cast_near q m : q * dbu = m -> - reach <= q -> q <= reach -> near dbu (um dbu (to_int q)) m.
Proof using C P.
  intros <- L U. destruct (C q L U) as [A B]. unfold near, um. remember (Q2Qc (inject_Z (to_int q))) as t.
  split.
  - replace (q * dbu - dbu) with ((q - 1) * dbu) by ring. now apply Qcmult_lt_compat_r.
  - replace (q * dbu + dbu) with ((q + 1) * dbu) by ring. now apply Qcmult_lt_compat_r.
Qed.
Lemma le_dbu a b : a * dbu <= b * dbu -> a <= b.
Proof using P.
  clear C. intros H. apply Qcnot_lt_le. intros L. apply (Qcle_not_lt _ _ H). now apply Qcmult_lt_compat_r.
Qed.
Lemma close_coord z : close_by dbu z -> - (reach - twenty) <= coord dbu z /\ coord dbu z <= reach - twenty.
Proof using P.
  clear C. intros [A B]. rewrite <- coord_um in *. split; apply le_dbu; [|exact B].
  replace (- (reach - twenty) * dbu) with (- ((reach - twenty) * dbu)) by ring. exact A.
Qed.
Lemma near_coord z : close_by dbu z -> near dbu (um dbu (to_int (coord dbu z))) (micro z).
Proof using C P.
  intros H. apply close_coord in H as [A B]. apply cast_near; [apply coord_um| |].
  - eapply Qcle_trans; [|exact A]. unfold reach, twenty. qclra.
  - eapply Qcle_trans; [exact B|]. unfold reach, twenty. qclra.
Qed.
Lemma near_side z : close_by dbu z -> near dbu (um dbu (to_int (coord dbu z + Q2Qc (20 # 1)))) (micro z + twenty * dbu).
Proof using C P.
  intros H. apply close_coord in H as [A B]. apply cast_near.
  - rewrite <- coord_um. unfold twenty. ring.
  - eapply Qcle_trans; [|apply Qcplus_le_compat; [exact A|apply Qcle_refl]]. unfold reach, twenty. qclra.
  - eapply Qcle_trans; [apply Qcplus_le_compat; [exact B|apply Qcle_refl]|]. unfold reach, twenty. qclra.
Qed.
Lemma near_min a b x y : near dbu (um dbu a) (micro x) -> near dbu (um dbu b) (micro y) -> near dbu (um dbu (Z.min a b)) (micro (Z.min x y)).
Proof using P.
  clear C. intros [A1 A2] [B1 B2]. unfold near.
  destruct (Z.le_gt_cases a b) as [L|L]; destruct (Z.le_gt_cases x y) as [M|M];
  rewrite ?(Z.min_r a b), ?(Z.min_l a b), ?(Z.min_r x y), ?(Z.min_l x y) by lia; try (split; assumption).
  - assert (L' := um_le a b L). assert (M' := micro_le y x ltac:(lia)). split; qclra.
  - assert (L' := um_le b a ltac:(lia)). assert (M' := micro_le x y M). split; qclra.
Qed.
Lemma near_max a b x y : near dbu (um dbu a) (micro x) -> near dbu (um dbu b) (micro y) -> near dbu (um dbu (Z.max a b)) (micro (Z.max x y)).
Proof using P.
  clear C. intros [A1 A2] [B1 B2]. unfold near.
  destruct (Z.le_gt_cases a b) as [L|L]; destruct (Z.le_gt_cases x y) as [M|M];
  rewrite ?(Z.max_r a b), ?(Z.max_l a b), ?(Z.max_r x y), ?(Z.max_l x y) by lia; try (split; assumption).
  - assert (L' := um_le a b L). assert (M' := micro_le y x ltac:(lia)). split; qclra.
  - assert (L' := um_le b a ltac:(lia)). assert (M' := micro_le x y M). split; qclra.
Qed.
End Num.

(** ** one box *)
Section Spots.
Variables (to_int : Qc -> Z) (dbu : Qc).
(** the box made for a place *)
Definition box_spot (s : spot) : box :=
  match s with
  | Area x1 y1 x2 y2 => box_of to_int (coord dbu x1) (coord dbu y1) (coord dbu x2) (coord dbu y2)
  | Point x y => box_for_point_dbu to_int (coord dbu x) (coord dbu y)
  end.
Hypotheses (C : casts to_int) (P : 0 < dbu).

Lemma cast_mono z : close_by dbu z -> (to_int (coord dbu z) <= to_int (coord dbu z + Q2Qc (20 # 1)))%Z.
Proof using C P.
  intros H. apply (close_coord dbu P) in H as [A B].
  assert (A' : - reach <= coord dbu z) by (eapply Qcle_trans; [|exact A]; unfold reach, twenty; qclra).
  assert (B' : coord dbu z <= reach) by (eapply Qcle_trans; [exact B|]; unfold reach, twenty; qclra).
  assert (A2 : - reach <= coord dbu z + Q2Qc (20 # 1)) by (revert A'; unfold reach; intros; qclra).
  assert (B2 : coord dbu z + Q2Qc (20 # 1) <= reach) by (revert B; unfold reach, twenty; intros; qclra).
  destruct (C _ A' B') as [_ U]. destruct (C _ A2 B2) as [L _].
  assert (E : Q2Qc (inject_Z (to_int (coord dbu z))) <= Q2Qc (inject_Z (to_int (coord dbu z + Q2Qc (20 # 1))))) by qclra.
  unfold Qcle in E. rewrite !this_Q2Qc in E. unfold Qle in E. cbn in E. lia.
Qed.
Lemma spot_shows s : within dbu s -> shows dbu s (scaled dbu (box_spot s)).
Proof using C P.
  destruct s as [x1 y1 x2 y2|x y]; cbn [within shows box_spot].
  - intros (X1 & Y1 & X2 & Y2). unfold box_of, mk_box, scaled. cbn [left bottom right top b_left b_bottom b_right b_top].
    split; [|split; [|split]]; [apply near_min|apply near_min|apply near_max|apply near_max]; try assumption; now apply near_coord.
  - intros (X & Y). unfold box_for_point_dbu, box_of, mk_box, scaled. cbn [left bottom right top b_left b_bottom b_right b_top].
    rewrite !Z.min_l, !Z.max_r by now apply cast_mono.
    split; [|split; [|split]].
    + exact (near_coord to_int dbu C P x X).
    + exact (near_coord to_int dbu C P y Y).
    + exact (near_side to_int dbu C P x X).
    + exact (near_side to_int dbu C P y Y).
Qed.

(** a whole number of database units in each of Magic's *)
Variable k : Z.
Hypothesis K : Q2Qc (inject_Z k) * (Q2Qc (200 # 1) * dbu) = 1.
Lemma coord_int z : coord dbu z = Q2Qc (inject_Z (z * k)).
Proof using K P.
  clear C. assert (N := dbu_neq dbu P). unfold coord.
  transitivity (Q2Qc (inject_Z z) * Q2Qc (inject_Z k) * (Q2Qc (200 # 1) * dbu) / Q2Qc (200 # 1) / dbu).
  - rewrite <- Qcmult_assoc, K. field; split; first [exact N | intros H; discriminate H].
  - transitivity (Q2Qc (inject_Z z) * Q2Qc (inject_Z k)); [field; split; first [exact N | intros H; discriminate H]|].
    apply Qc_is_canon. rewrite this_mult, !this_Q2Qc. unfold Qeq. cbn. lia.
Qed.
Lemma cast_int z : - reach <= Q2Qc (inject_Z z) -> Q2Qc (inject_Z z) <= reach -> to_int (Q2Qc (inject_Z z)) = z.
Proof using C.
  clear P K. intros A B. destruct (C _ A B) as [L U]. remember (to_int (Q2Qc (inject_Z z))) as t. clear Heqt A B.
  unfold Qclt in *. rewrite this_minus, !this_Q2Qc in L. rewrite this_plus, !this_Q2Qc in U.
  unfold Qlt in L, U. cbn in L, U. lia.
Qed.
Lemma exact_coord z : close_by dbu z -> um dbu (to_int (coord dbu z)) = micro z.
Proof using C K P.
  intros H. destruct (close_coord dbu P z H) as [A B]. rewrite <- (coord_um dbu P). unfold um. f_equal.
  rewrite coord_int in A, B |- *. rewrite cast_int; [reflexivity| |].
  - eapply Qcle_trans; [|exact A]. unfold reach, twenty. qclra.
  - eapply Qcle_trans; [exact B|]. unfold reach, twenty. qclra.
Qed.
Lemma exact_side z : close_by dbu z -> um dbu (to_int (coord dbu z + Q2Qc (20 # 1))) = micro z + twenty * dbu.
Proof using C K P.
  intros H. destruct (close_coord dbu P z H) as [A B]. rewrite <- (coord_um dbu P). unfold um.
  replace (coord dbu z * dbu + twenty * dbu) with ((coord dbu z + Q2Qc (20 # 1)) * dbu) by (unfold twenty; ring). f_equal.
  assert (E : coord dbu z + Q2Qc (20 # 1) = Q2Qc (inject_Z (z * k + 20))).
  { rewrite coord_int. apply Qc_is_canon. rewrite this_plus, !this_Q2Qc. unfold Qeq. cbn. lia. }
  rewrite E. rewrite cast_int; [reflexivity| |]; rewrite <- E.
  - eapply Qcle_trans; [|apply Qcplus_le_compat; [exact A|apply Qcle_refl]]. unfold reach, twenty. qclra.
  - eapply Qcle_trans; [apply Qcplus_le_compat; [exact B|apply Qcle_refl]|]. unfold reach, twenty. qclra.
Qed.
Lemma um_inj_min a b x y : um dbu a = micro x -> um dbu b = micro y -> um dbu (Z.min a b) = micro (Z.min x y).
Proof using P.
  clear C K. intros A B. destruct (Z.le_gt_cases a b) as [L|L]; destruct (Z.le_gt_cases x y) as [M|M];
  rewrite ?(Z.min_r a b), ?(Z.min_l a b), ?(Z.min_r x y), ?(Z.min_l x y) by lia; try assumption.
  - assert (L' := um_le dbu P a b L). assert (M' := micro_le y x ltac:(lia)). apply Qcle_antisym; qclra.
  - assert (L' := um_le dbu P b a ltac:(lia)). assert (M' := micro_le x y M). apply Qcle_antisym; qclra.
Qed.
Lemma um_inj_max a b x y : um dbu a = micro x -> um dbu b = micro y -> um dbu (Z.max a b) = micro (Z.max x y).
Proof using P.
  clear C K. intros A B. destruct (Z.le_gt_cases a b) as [L|L]; destruct (Z.le_gt_cases x y) as [M|M];
  rewrite ?(Z.max_r a b), ?(Z.max_l a b), ?(Z.max_r x y), ?(Z.max_l x y) by lia; try assumption.
  - assert (L' := um_le dbu P a b L). assert (M' := micro_le y x ltac:(lia)). apply Qcle_antisym; qclra.
  - assert (L' := um_le dbu P b a ltac:(lia)). assert (M' := micro_le x y M). apply Qcle_antisym; qclra.
Qed.
Lemma spot_exact s : within dbu s -> shows_exactly dbu s (scaled dbu (box_spot s)).
Proof using C K P.
  unfold shows_exactly. destruct s as [x1 y1 x2 y2|x y]; cbn [within box_spot].
  - intros (X1 & Y1 & X2 & Y2). unfold box_of, mk_box, scaled. cbn [left bottom right top].
    f_equal; [apply um_inj_min|apply um_inj_min|apply um_inj_max|apply um_inj_max]; now apply exact_coord.
  - intros (X & Y). unfold box_for_point_dbu, box_of, mk_box, scaled. cbn [left bottom right top].
    rewrite !Z.min_l, !Z.max_r by now apply cast_mono.
    f_equal; [exact (exact_coord x X)|exact (exact_coord y Y)|exact (exact_side x X)|exact (exact_side y Y)].
Qed.
End Spots.

(** ** the items *)
Section Items.
Variables (to_int : Qc -> Z) (float_text : Qc -> string) (dbu : Qc).
Definition item_of (e : string * path * spot) : item := Item (fst (fst e)) (snd (fst e)) (scaled dbu (box_spot to_int dbu (snd e))).

Lemma fold_items {A} (f : rdb -> A -> rdb) (F : A -> list item) :
  (forall db a, rd_items (f db a) = rd_items db ++ F a) -> forall l db, rd_items (fold_left f l db) = rd_items db ++ flat_map F l.
Proof. intros H l. induction l as [|a l IH]; intros db; cbn; [now rewrite app_nil_r|]. now rewrite IH, H, app_assoc. Qed.
Lemma flat_map_one {A B} (f : A -> B) l : flat_map (fun a => [f a]) l = map f l.
Proof. induction l; cbn; congruence. Qed.

Lemma port_items c db p : rd_items (show_port to_int dbu c ["MAGIC Extraction"; "Ports"] db p) = rd_items db ++ [item_of (c, port_cat p, port_spot p)].
Proof. reflexivity. Qed.
Lemma node_items c db n : rd_items (show_node to_int dbu c ["MAGIC Extraction"; "Nodes"] db n) = rd_items db ++ [item_of (c, node_cat n, node_spot n)].
Proof. reflexivity. Qed.
Lemma device_items c db d : rd_items (show_device to_int dbu c ["MAGIC Extraction"; "Devices"] db d) = rd_items db ++ [item_of (c, device_cat d, device_spot d)].
Proof. reflexivity. Qed.
Lemma rnode_items c db n : rd_items (show_rnode to_int dbu c ["MAGIC Extraction"; "Resistor Nodes"] db n) = rd_items db ++ [item_of (c, rnode_cat n, rnode_spot n)].
Proof. reflexivity. Qed.
Definition resistor_entries (c : string) (y : resext) (kt : nat * resistor) : list (string * path * spot) :=
  map (fun n => (c, resistor_cat float_text (fst kt) (snd kt), rnode_spot n)) (named y (t_node1 (snd kt)) ++ named y (t_node2 (snd kt))).
Lemma resistor_items c y db k t :
  rd_items (fst (show_resistor to_int float_text dbu c ["MAGIC Extraction"; "Resistors"] y (db, k) t)) =
  rd_items db ++ map item_of (resistor_entries c y (k, t)) /\
  snd (show_resistor to_int float_text dbu c ["MAGIC Extraction"; "Resistors"] y (db, k) t) = S k.
Proof.
  split; [|reflexivity]. unfold show_resistor, create_category, create_items, resistor_entries. cbn [fst snd rd_items].
  rewrite !map_map. reflexivity.
Qed.
Lemma resistors_items c y l : forall db k,
  rd_items (fst (fold_left (show_resistor to_int float_text dbu c ["MAGIC Extraction"; "Resistors"] y) l (db, k))) =
  rd_items db ++ map item_of (flat_map (resistor_entries c y) (combine (seq k (List.length l)) l)).
Proof.
  induction l as [|t l IH]; intros db k; cbn [fold_left List.length seq combine flat_map map]; [now rewrite app_nil_r|].
  destruct (resistor_items c y db k t) as [A B].
  destruct (show_resistor to_int float_text dbu c _ y (db, k) t) as [db' k']. cbn [fst snd] in A, B. subst k'.
  rewrite IH, A, map_app, app_assoc. reflexivity.
Qed.
Lemma cell_items db c d :
  rd_items (analyze_cell to_int float_text dbu ["MAGIC Extraction"] db c d) = rd_items db ++ map item_of (cell_listing float_text c d).
Proof.
  unfold analyze_cell, create_category. cbv zeta. cbn [app].
  assert (E : forall db0, rd_items (fold_left (show_device to_int dbu c ["MAGIC Extraction"; "Devices"]) (x_devices (c_ext d))
      (fold_left (show_node to_int dbu c ["MAGIC Extraction"; "Nodes"]) (x_nodes (c_ext d))
        (fold_left (show_port to_int dbu c ["MAGIC Extraction"; "Ports"]) (x_ports (c_ext d)) db0))) =
    rd_items db0 ++ map item_of (map (fun p => (c, port_cat p, port_spot p)) (x_ports (c_ext d)) ++
      map (fun n => (c, node_cat n, node_spot n)) (x_nodes (c_ext d)) ++ map (fun v => (c, device_cat v, device_spot v)) (x_devices (c_ext d)))).
  { intros db0. rewrite (fold_items _ _ (device_items c)), (fold_items _ _ (node_items c)), (fold_items _ _ (port_items c)).
    rewrite !flat_map_one, !map_app, !map_map, !app_assoc. reflexivity. }
  unfold cell_listing. destruct (c_res d) as [y|].
  - rewrite resistors_items, (fold_items _ _ (rnode_items c)), E, flat_map_one.
    cbn [rd_items create_cell]. rewrite !map_app, !map_map, !app_assoc. reflexivity.
  - rewrite E, app_nil_r. reflexivity.
Qed.
Lemma items_listing cells : rd_items (analyze to_int float_text dbu cells) = map item_of (listing float_text cells).
Proof.
  unfold analyze, create_category. cbn [app].
  rewrite (fold_items _ (fun cd => map item_of (cell_listing float_text (fst cd) (snd cd)))) by (intros; apply cell_items).
  cbn [rd_items app]. unfold listing. induction cells as [|x l IH]; cbn; [reflexivity|]. now rewrite map_app, IH.
Qed.

Lemma fold_head {A B} (g : rdb -> list B) (f : rdb -> A -> rdb) (F : A -> list B) :
  (forall db a, g (f db a) = g db ++ F a) -> forall l db, g (fold_left f l db) = g db ++ flat_map F l.
Proof. intros H l. induction l as [|a l IH]; intros db; cbn; [now rewrite app_nil_r|]. now rewrite IH, H, app_assoc. Qed.
Lemma fold_same {A B} (g : rdb -> B) (f : rdb -> A -> rdb) : (forall db a, g (f db a) = g db) -> forall l db, g (fold_left f l db) = g db.
Proof. intros H l. induction l as [|a l IH]; intros db; cbn; [reflexivity|]. now rewrite IH, H. Qed.
Lemma resistors_cats c y l : forall db k,
  rd_cats (fst (fold_left (show_resistor to_int float_text dbu c ["MAGIC Extraction"; "Resistors"] y) l (db, k))) =
  rd_cats db ++ map (fun kt => resistor_cat float_text (fst kt) (snd kt)) (combine (seq k (List.length l)) l) /\
  rd_cells (fst (fold_left (show_resistor to_int float_text dbu c ["MAGIC Extraction"; "Resistors"] y) l (db, k))) = rd_cells db.
Proof.
  induction l as [|t l IH]; intros db k; cbn [fold_left List.length seq combine map]; [now rewrite app_nil_r|].
  unfold show_resistor at 2 4. unfold create_category. cbv zeta beta iota.
  match goal with |- context [fold_left _ l (?d, S k)] => destruct (IH d (S k)) as [A B] end. rewrite A, B. cbn [create_items rd_cats rd_cells].
  rewrite <- app_assoc. now split.
Qed.
Lemma cell_cats db c d :
  rd_cats (analyze_cell to_int float_text dbu ["MAGIC Extraction"] db c d) = rd_cats db ++ cell_titles float_text d /\
  rd_cells (analyze_cell to_int float_text dbu ["MAGIC Extraction"] db c d) = rd_cells db ++ [c].
Proof.
  unfold analyze_cell, create_category. cbv zeta. cbn [app].
  assert (E : forall db0, rd_cats (fold_left (show_device to_int dbu c ["MAGIC Extraction"; "Devices"]) (x_devices (c_ext d))
      (fold_left (show_node to_int dbu c ["MAGIC Extraction"; "Nodes"]) (x_nodes (c_ext d))
        (fold_left (show_port to_int dbu c ["MAGIC Extraction"; "Ports"]) (x_ports (c_ext d)) db0))) =
    rd_cats db0 ++ map port_cat (x_ports (c_ext d)) ++ map node_cat (x_nodes (c_ext d)) ++ map device_cat (x_devices (c_ext d)) /\
    rd_cells (fold_left (show_device to_int dbu c ["MAGIC Extraction"; "Devices"]) (x_devices (c_ext d))
      (fold_left (show_node to_int dbu c ["MAGIC Extraction"; "Nodes"]) (x_nodes (c_ext d))
        (fold_left (show_port to_int dbu c ["MAGIC Extraction"; "Ports"]) (x_ports (c_ext d)) db0))) = rd_cells db0).
  { intros db0. split.
    - rewrite (fold_head rd_cats (show_device to_int dbu c _) (fun v => [device_cat v])) by reflexivity.
      rewrite (fold_head rd_cats (show_node to_int dbu c _) (fun v => [node_cat v])) by reflexivity.
      rewrite (fold_head rd_cats (show_port to_int dbu c _) (fun v => [port_cat v])) by reflexivity.
      rewrite !flat_map_one, !app_assoc. reflexivity.
    - rewrite !(fold_same rd_cells) by reflexivity. reflexivity. }
  unfold cell_titles. match goal with |- context [fold_left (show_port _ _ _ _) _ ?d0] => set (db0 := d0) end.
  assert (K : rd_cats db0 = rd_cats db ++ map (fun k => ["MAGIC Extraction"; k]) ["Ports"; "Nodes"; "Devices"; "Resistor Nodes"; "Resistors"]
    /\ rd_cells db0 = rd_cells db ++ [c]).
  { unfold db0. cbn [rd_cats rd_cells create_cell map]. split; [rewrite <- !app_assoc; reflexivity|reflexivity]. }
  clearbody db0. destruct (E db0) as [E1 E2], K as [K1 K2]. destruct (c_res d) as [y|].
  - match goal with |- context [fold_left (show_resistor _ _ _ _ _ _) (y_resistors y) (?d1, 0%nat)] =>
      destruct (resistors_cats c y (y_resistors y) d1 0) as [-> ->] end.
    rewrite (fold_head rd_cats (show_rnode to_int dbu c _) (fun v => [rnode_cat v])) by reflexivity.
    rewrite (fold_same rd_cells (show_rnode to_int dbu c _)) by reflexivity.
    rewrite E1, E2, K1, K2, flat_map_one. split; [|reflexivity]. rewrite <- !app_assoc. reflexivity.
  - rewrite E1, E2, K1, K2, app_nil_r, <- !app_assoc. now split.
Qed.
Lemma cats_titles cells :
  rd_cats (analyze to_int float_text dbu cells) = ["MAGIC Extraction"] :: flat_map (fun cd => cell_titles float_text (snd cd)) cells /\
  rd_cells (analyze to_int float_text dbu cells) = map fst cells.
Proof.
  unfold analyze, create_category. cbn [app rd_cells rd_cats rd_items]. split.
  - rewrite (fold_head rd_cats _ (fun cd => cell_titles float_text (snd cd))) by (intros; apply cell_cats). reflexivity.
  - rewrite (fold_head rd_cells _ (fun cd => [fst cd])) by (intros; apply cell_cats). apply flat_map_one.
Qed.
End Items.

(** ** the run directory *)
Lemma picks_In {A} (S : string -> A -> Prop) (U : forall l a b, S l a -> S l b -> a = b) ls r :
  picks S ls r -> forall a, In a r <-> exists l, In l ls /\ S l a.
Proof.
  induction 1 as [|l a0 ls r H P IH|l ls r H P IH]; intros a.
  - split; [intros []|intros (l & [] & _)].
  - cbn. rewrite IH. split.
    + intros [<-|(l' & I & Q)]; [exists l; auto|exists l'; auto].
    + intros (l' & [<-|I] & Q); [left; now apply (U l)|right; now exists l'].
  - rewrite IH. split; intros (l' & I & Q); exists l'; [split; [now right|exact Q]|].
    destruct I as [<-|I]; [now destruct (H a)|now split].
Qed.
Lemma picks_app {A} (S : string -> A -> Prop) ls1 ls2 r :
  picks S (ls1 ++ ls2) r -> exists r1 r2, picks S ls1 r1 /\ picks S ls2 r2 /\ r = r1 ++ r2.
Proof.
  revert r. induction ls1 as [|l ls1 IH]; cbn; intros r H.
  - exists [], r. repeat split; [constructor|exact H].
  - inversion H as [|l0 a ls r' Q P E|l0 ls r' Q P E]; subst; destruct (IH _ P) as (r1 & r2 & P1 & P2 & ->).
    + exists (a :: r1), r2. repeat split; [now constructor|exact P2].
    + exists r1, r2. repeat split; [now constructor|exact P2].
Qed.
Lemma In_numbered {A} (l : list A) : forall i k a, In (k, a) (combine (seq i (List.length l)) l) <-> exists l1 l2, l = l1 ++ a :: l2 /\ k = (i + List.length l1)%nat.
Proof.
  induction l as [|x l IH]; intros i k a; cbn.
  - split; [intros []|intros (l1 & l2 & E & _); now destruct l1].
  - rewrite IH. split.
    + intros [[= <- <-]|(l1 & l2 & -> & ->)]; [exists [], l; split; [reflexivity|cbn; lia]|exists (x :: l1), l2; split; [reflexivity|cbn; lia]].
    + intros (l1 & l2 & E & ->). destruct l1 as [|y l1]; cbn in E; injection E as -> ->.
      * left. f_equal. cbn. lia.
      * right. exists l1, l2. split; [reflexivity|cbn; lia].
Qed.
Lemma picks_nth {A} (S : string -> A -> Prop) (U : forall l a b, S l a -> S l b -> a = b) ls r :
  picks S ls r -> forall k a, In (k, a) (numbered r) <->
    exists before l after earlier, ls = before ++ l :: after /\ picks S before earlier /\ S l a /\ k = List.length earlier.
Proof.
  intros P k a. unfold numbered. rewrite In_numbered. split.
  - intros (l1 & l2 & E & ->). revert l1 E. induction P as [|l b ls r H P IH|l ls r H P IH]; intros l1 E.
    + now destruct l1.
    + destruct l1 as [|y l1]; cbn in E; injection E as -> E.
      * exists [], l, ls, []. repeat split; [constructor|exact H].
      * destruct (IH l1 E) as (bf & l' & af & ea & -> & Pb & Q & L). exists (l :: bf), l', af, (y :: ea).
        repeat split; [now constructor|exact Q|cbn in *; lia].
    + destruct (IH l1 E) as (bf & l' & af & ea & -> & Pb & Q & L). exists (l :: bf), l', af, ea.
      repeat split; [now constructor|exact Q|exact L].
  - intros (bf & l & af & ea & -> & Pb & Q & ->). apply picks_app in P as (r1 & r2 & P1 & P2 & ->).
    inversion P2 as [|l0 b ls0 r' Q' P' E|l0 ls0 r' Q' P' E]; subst; [|now destruct (Q' a)].
    rewrite (U l b a Q' Q). exists r1, r'. split; [reflexivity|]. now rewrite (MG_Proofs.picks_fun _ _ _ _ U Pb P1).
Qed.

Lemma fold_cell_wf res M : forall acc cells, dwf acc -> fold_left (cell_step res) M (Some acc) = Some cells -> dwf cells.
Proof.
  induction M as [|f M IH]; intros acc cells W; cbn [fold_left].
  - now intros [= <-].
  - unfold cell_step at 2. destruct (cell_data res (fst f) (snd f)).
    + apply IH. now apply dwf_dset.
    + rewrite MG_Run.fold_cell_none. discriminate.
Qed.
Lemma parse_run_wf D cells : parse_run D = Some cells -> dwf cells.
Proof.
  unfold parse_run. destruct (fold_left sort_file (ext_files D) ([], [])) as [m r]. destruct m; [discriminate|].
  apply fold_cell_wf. constructor.
Qed.

Section Dir.
Variable float_text : Qc -> string.
Variables (D : list (string * string)) (cells : dict string cellext).
Hypotheses (PD : plain_dir D) (E : parse_run D = Some cells).

Lemma cell_In c d : In (c, d) cells <-> plain_cell c /\ expected D c (Some d).
Proof using PD E.
  destruct (MG_Run.run_spec D PD) as [(cs & E' & _ & H & K)|[E' _]]; [|congruence]. rewrite E in E'. injection E' as <-.
  assert (W := parse_run_wf D cells E). split.
  - intros I. apply In_dget in I; [|exact W]. assert (P : plain_cell c) by (apply K; eapply dget_Some_key; exact I).
    split; [exact P|]. rewrite <- I. now apply H.
  - intros [P X]. apply dget_In. apply (MG_Run.expected_fun D c); [apply PD|now apply H|exact X].
Qed.

Lemma said c p s : In (c, p, s) (listing float_text cells) <-> plain_cell c /\ says float_text D c p s.
Proof using PD E.
  assert (ND : NoDup (map fst D)) by apply PD.
  unfold listing. rewrite in_flat_map. split.
  - intros ([c' d] & I & J). cbn [fst snd] in J. apply cell_In in I as [P X].
    destruct X as [[X _]|(t & x & y & X & It & Ex & R)]; [discriminate X|]. injection X as ->.
    apply MG_Proofs.parse_ext_iff in Ex as (Pp & Pn & Pv & _).
    unfold cell_listing in J. cbn [c_ext c_res] in J. rewrite !in_app_iff in J.
    assert (Ik : In (c' ++ ".ext")%string (map fst D)) by (apply in_map_iff; now exists ((c' ++ ".ext")%string, t)).
    destruct J as [J|[J|[J|J]]].
    1-3: apply in_map_iff in J as (a & [= <- <- <-] & I); split; [exact P|].
    + apply (picks_In _ MG_Proofs.port_unique _ _ Pp) in I as (l & Il & H). now apply says_port with t l.
    + apply (picks_In _ MG_Proofs.node_unique _ _ Pn) in I as (l & Il & H). now apply says_node with t l.
    + apply (picks_In device_line) with (r := x_devices x) (ls := lines t) in I as (l & Il & H); [now apply says_device with t l| |exact Pv].
      intros l' a' b' [A _] [B _]. exact (MG_Proofs.device_unique _ _ _ A B).
    + destruct R as [[-> _]|(u & z & -> & Iu & Ez)]; [destruct J|]. apply MG_Proofs.parse_res_iff in Ez as (Pr & Pt & _).
      apply in_app_iff in J as [J|J].
      * apply in_map_iff in J as (a & [= <- <- <-] & I). split; [exact P|].
        apply (picks_In _ MG_Proofs.rnode_unique _ _ Pr) in I as (l & Il & H). now apply says_rnode with u l.
      * apply in_flat_map in J as ([k r] & Ir & J). cbn [fst snd] in J. apply in_map_iff in J as (n & [= <- <- <-] & In_).
        split; [exact P|].
        apply (picks_nth _ MG_Proofs.resistor_unique _ _ Pt) in Ir as (bf & l & af & ea & El & Pb & H & ->).
        assert (N : In n (y_rnodes z) /\ (r_name n = t_node1 r \/ r_name n = t_node2 r)).
        { apply in_app_iff in In_ as [I|I]; apply filter_In in I as [I Q]; apply String.eqb_eq in Q; auto. }
        destruct N as [N Q]. apply (picks_In _ MG_Proofs.rnode_unique _ _ Pr) in N as (l' & Il' & H').
        now apply says_resistor with u bf l af l'.
  - intros [P H].
    assert (G : In (c ++ ".ext")%string (map fst D) -> exists d, In (c, d) cells).
    { intros I. destruct (MG_Run.run_spec D PD) as [(cs & E' & _ & X & _)|[E' _]]; [|congruence]. rewrite E in E'. injection E' as <-.
      specialize (X c P). destruct (dget cells c) as [d|] eqn:G; [exists d; now apply dget_In|].
      destruct X as [[_ N]|(t & x & y & Y & _)]; [contradiction|discriminate Y]. }
    assert (M : forall t, In ((c ++ ".ext")%string, t) D -> In (c ++ ".ext")%string (map fst D)).
    { intros t I. apply in_map_iff. now exists ((c ++ ".ext")%string, t). }
    assert (X : In (c ++ ".ext")%string (map fst D)) by (destruct H; eauto).
    destruct (G X) as [d I]. exists (c, d). split; [exact I|]. cbn [fst snd].
    apply cell_In in I as [_ [[Y _]|(t & x & y & Y & It & Ex & R)]]; [discriminate Y|]. injection Y as ->.
    apply MG_Proofs.parse_ext_iff in Ex as (Pp & Pn & Pv & _).
    unfold cell_listing. cbn [c_ext c_res]. rewrite !in_app_iff.
    destruct H as [t' l a I' Il H|t' l a I' Il H|t' l a I' Il H|u l a _ Iu Il H|u bf l af ea r l' n _ Iu El Pb H Il' H' Q].
    1-3: rewrite (MG_Run.same_file D _ t' t ND I' It) in *.
    + left. apply in_map_iff. exists a. split; [reflexivity|]. apply (picks_In _ MG_Proofs.port_unique _ _ Pp). now exists l.
    + right; left. apply in_map_iff. exists a. split; [reflexivity|]. apply (picks_In _ MG_Proofs.node_unique _ _ Pn). now exists l.
    + right; right; left. apply in_map_iff. exists a. split; [reflexivity|]. apply (picks_In device_line) with (lines t); [|exact Pv|now exists l].
      intros l' a' b' [A _] [B _]. exact (MG_Proofs.device_unique _ _ _ A B).
    + right; right; right. destruct R as [[_ N]|(u' & z & -> & Iu' & Ez)].
      { destruct N. apply in_map_iff. now exists ((c ++ ".res.ext")%string, u). }
      apply MG_Proofs.parse_res_iff in Ez as (Pr & Pt & _). rewrite (MG_Run.same_file D _ u u' ND Iu Iu') in *.
      apply in_app_iff. left. apply in_map_iff. exists a. split; [reflexivity|]. apply (picks_In _ MG_Proofs.rnode_unique _ _ Pr). now exists l.
    + right; right; right. destruct R as [[_ N]|(u' & z & -> & Iu' & Ez)].
      { destruct N. apply in_map_iff. now exists ((c ++ ".res.ext")%string, u). }
      apply MG_Proofs.parse_res_iff in Ez as (Pr & Pt & _). rewrite (MG_Run.same_file D _ u u' ND Iu Iu') in *.
      apply in_app_iff. right. apply in_flat_map. exists (List.length ea, r). split.
      { apply (picks_nth _ MG_Proofs.resistor_unique _ _ Pt). now exists bf, l, af, ea. }
      cbn [fst snd]. apply in_map_iff. exists n. split; [reflexivity|].
      assert (N : In n (y_rnodes z)) by (apply (picks_In _ MG_Proofs.rnode_unique _ _ Pr); now exists l').
      apply in_app_iff. destruct Q as [Q|Q]; [left|right]; (apply filter_In; split; [exact N|now apply String.eqb_eq]).
Qed.
End Dir.

(** ** leftovers *)
Lemma overwritten_wf W : forall D, dwf D -> dwf (overwritten D W).
Proof. induction W as [|f W IH]; intros D H; cbn; [exact H|]. apply IH. now apply dwf_dset. Qed.
Lemma overwritten_get W : forall D f, dwf W -> dget (overwritten D W) f = match dget W f with Some t => Some t | None => dget D f end.
Proof.
  induction W as [|[g u] W IH]; intros D f H; [reflexivity|]. inversion H as [|? ? N H' ]; subst.
  change (overwritten D ((g, u) :: W)) with (overwritten (dset D g u) W). rewrite IH by exact H'.
  rewrite dget_dset. cbn [dget]. destruct (eq_dec f g) as [->|Nfg].
  - destruct (eq_dec g g); [|congruence]. destruct (dget W g) eqn:Q; [|reflexivity]. destruct N. eapply dget_Some_key; exact Q.
  - destruct (eq_dec g f); [congruence|]. reflexivity.
Qed.
