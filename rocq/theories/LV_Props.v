(** C54, C56, C66-C69: what the LVS database contributes to an extraction. *)
From Coq Require Import String ZArith.
From Verif Require Import PyBase PyLib ER_Model UT_Model LV_Model LV_Spec LV_Proofs.
Local Open Scope string_scope.
Local Open Scope list_scope.

(** ** a technology and an LVS database for the examples *)
Definition ex_tech : tech := Tech
  [ CLayer "poly_con" (66, 20)%Z KRegular PMetal "poly"; CLayer "met1_con" (68, 20)%Z KRegular PMetal "met1";
    CLayer "met1_ind" (68, 20)%Z KRegular PMetal "met1"; CLayer "met1_pin_con" (68, 16)%Z KPin PMetal "met1.pin";
    CLayer "poly_res" (66, 120)%Z KResistor PMetal "poly"; CLayer "cap" (89, 44)%Z KCapacitor PMetal "met1" ]
  [ TLayer "poly" (66, 20)%Z (66, 16)%Z (66, 5)%Z; TLayer "met1" (68, 20)%Z (68, 16)%Z (68, 5)%Z; TLayer "text" (83, 44)%Z (0, 0)%Z (0, 0)%Z ].
Definition sq (x y : Z) : poly := Poly [(x, y); (x, y + 10); (x + 10, y + 10); (x + 10, y)]%Z [].
Definition ex_db : lvsdb := LvsDB
  [ LvsLayer 2 "met1_con" (Some (68, 20)%Z); LvsLayer 3 "poly_con" None; LvsLayer 5 "poly_res" None; LvsLayer 6 "met1_ind" None;
    LvsLayer 7 "met1_pin_con" (Some (68, 16)%Z); LvsLayer 8 "nwell" (Some (64, 20)%Z); LvsLayer 9 "l9" None; LvsLayer 11 "cap" None ]
  (fun i => match i with
            | 2 => [(sq 0 0, "A"); (sq 20 0, "B")] | 3 => [(sq 0 20, "A")] | 5 => [(sq 5 5, "A")] | 6 => [(sq 40 0, "A")]
            | 7 => [(sq 0 0, "A"); (sq 20 0, "B")] | 8 => [(sq 0 0, "W")] | 9 => [(sq 1 1, "X")] | _ => [] end%nat).
Example ex_db_wf : db_wf ex_db.
Proof. unfold db_wf; simpl. repeat constructor; simpl; intuition discriminate. Qed.

(** ** C54: LVS layers are merged by GDS pair without loss *)
(** every GDS pair has exactly its LVS layers, in LVS order; the pairs come in order of first use; unknown layers are listed *)
Theorem C54_layers : forall t blackbox db, db_wf db ->
  (forall p, dget (extracted_layers t blackbox db) p = match sources t blackbox db p with [] => None | xs => Some xs end) /\
  dkeys (extracted_layers t blackbox db) = used_pairs t blackbox db /\
  unnamed_layers t blackbox db = unknown_layers t db.
Proof. intros t b db wf. repeat split; [apply extracted_get, wf|apply extracted_keys, wf|apply unnamed_eq, wf]. Qed.
Print Assumptions C54_layers.

Lemma enumerate_nth {A} (l : list A) e : In e (enumerate l) <-> nth_error l (fst e) = Some (snd e).
Proof.
  unfold enumerate. assert (G : forall n i a, In (i, a) (combine (seq n (List.length l)) l) <-> (n <= i)%nat /\ nth_error l (i - n) = Some a).
  { induction l as [|b l IH]; intros n i a; simpl.
    - split; [tauto|]. intros [_ E]. destruct (i - n)%nat; discriminate.
    - rewrite IH. destruct (Nat.eq_dec i n) as [->|N].
      + rewrite Nat.sub_diag. simpl. split; [intros [E|[L _]]; [injection E as <-; auto|lia]|intros [_ E]; injection E as <-; auto].
      + split.
        * intros [E|[L E]]; [injection E; intros; congruence|]. split; [lia|]. replace (i - n)%nat with (S (i - S n)) by lia. exact E.
        * intros [L E]. right. split; [lia|]. replace (i - n)%nat with (S (i - S n)) in E by lia. exact E. }
  destruct e as [i a]; simpl. rewrite G, Nat.sub_0_r. intuition lia.
Qed.
Lemma enumerate_NoDup {A} (l : list A) (P : nat * A -> bool) : NoDup (map fst (filter P (enumerate l))).
Proof.
  unfold enumerate. generalize 0%nat. induction l as [|a l IH]; intros n; simpl; [constructor|].
  assert (N : ~ In n (map fst (filter P (combine (seq (S n) (List.length l)) l)))).
  { intros C. apply in_map_iff in C. destruct C as ([i b] & E & I). simpl in E. subst i. apply filter_In in I. destruct I as [I _].
    apply in_combine_l, in_seq in I. lia. }
  destruct (P (n, a)); simpl; [constructor; [exact N|]|]; apply IH.
Qed.
(** each LVS layer ends up in exactly the place its technology entry names, once, with all its shapes *)
Theorem C54_once : forall t blackbox db p xs, db_wf db -> dget (extracted_layers t blackbox db) p = Some xs ->
  NoDup (map x_index xs) /\
  forall i l, nth_error (db_layers db) i = Some l ->
    (In i (map x_index xs) <-> db_shapes db (lv_index l) <> [] /\ exists c, info_of t (lv_name l) = Some c /\ cl_pair c = p /\ hidden blackbox c = false) /\
    (In i (map x_index xs) -> In (XLayer i (lv_name l) p (db_shapes db (lv_index l))) xs).
Proof.
  intros t b db p xs wf E. rewrite (extracted_get t b db wf) in E.
  assert (S : sources t b db p = xs) by (destruct (sources t b db p); [discriminate|congruence]). subst xs. clear E.
  assert (M : map x_index (sources t b db p) = map fst (filter (fun e => belongs t b db p (snd e)) (enumerate (db_layers db)))).
  { unfold sources. rewrite map_map. reflexivity. }
  split; [rewrite M; apply enumerate_NoDup|]. intros i l Nt.
  assert (Q : In i (map x_index (sources t b db p)) <-> belongs t b db p l = true).
  { rewrite M, in_map_iff. split.
    - intros (e & <- & I). apply filter_In in I. destruct I as [I B]. apply enumerate_nth in I. congruence.
    - intros B. exists (i, l). split; [reflexivity|]. apply filter_In. split; [apply enumerate_nth; exact Nt|exact B]. }
  split.
  - rewrite Q. unfold belongs, has_shapes. destruct (db_shapes db (lv_index l)); simpl; [split; [discriminate|tauto]|].
    destruct (info_of t (lv_name l)) as [c|].
    + rewrite andb_true_iff, negb_true_iff, eqb_true. split.
      * intros [A B]. split; [discriminate|]. exists c. auto.
      * intros (_ & c' & F & A & B). injection F as <-. auto.
    + split; [discriminate|]. intros (_ & c' & F & _). discriminate.
  - rewrite Q. intros B. unfold sources. apply in_map_iff. exists (i, l). split; [reflexivity|]. apply filter_In. split; [apply enumerate_nth; exact Nt|exact B].
Qed.
Print Assumptions C54_once.

(** a layer with shapes is kept unless it is a hidden device layer, or unknown and without GDS number *)
Theorem C54_no_loss : forall t blackbox db i l, db_wf db -> nth_error (db_layers db) i = Some l -> db_shapes db (lv_index l) <> [] ->
  (exists c, info_of t (lv_name l) = Some c /\ hidden blackbox c = true) \/
  (info_of t (lv_name l) = None /\ lv_info l = None) \/
  (exists p xs, dget (extracted_layers t blackbox db) p = Some xs /\ In (XLayer i (lv_name l) p (db_shapes db (lv_index l))) xs) \/
  In (XLayer i (lv_name l) (1000 + Z.of_nat i, 20)%Z (db_shapes db (lv_index l))) (unnamed_layers t blackbox db).
Proof.
  intros t b db i l wf Nt Ne. destruct (info_of t (lv_name l)) as [c|] eqn:F.
  - destruct (hidden b c) eqn:Hd; [left; eauto|]. right. right. left.
    assert (I : In (XLayer i (lv_name l) (cl_pair c) (db_shapes db (lv_index l))) (sources t b db (cl_pair c))).
    { unfold sources. apply in_map_iff. exists (i, l). split; [reflexivity|]. apply filter_In. split; [apply enumerate_nth; exact Nt|].
      simpl. unfold belongs, has_shapes. rewrite F, Hd, eqb_refl. destruct (db_shapes db (lv_index l)); [congruence|reflexivity]. }
    exists (cl_pair c), (sources t b db (cl_pair c)). rewrite (extracted_get t b db wf). split; [|exact I].
    destruct (sources t b db (cl_pair c)); [destruct I|reflexivity].
  - destruct (lv_info l) as [q|] eqn:Q; [|auto]. do 3 right. rewrite (unnamed_eq t b db wf). unfold unknown_layers. apply in_map_iff.
    exists (i, l). split; [reflexivity|]. apply filter_In. split; [apply enumerate_nth; exact Nt|].
    simpl. unfold unknown, has_shapes. rewrite F, Q. destruct (db_shapes db (lv_index l)); [congruence|reflexivity].
Qed.
Print Assumptions C54_no_loss.
(** an unknown layer without GDS number disappears: the unrestricted claim fails *)
Theorem C54_unknown_refuted : exists t blackbox db i l, db_wf db /\ nth_error (db_layers db) i = Some l /\
  db_shapes db (lv_index l) <> [] /\ info_of t (lv_name l) = None /\
  ~ In (lv_name l) (map x_name (unnamed_layers t blackbox db) ++ flat_map (fun e => map x_name (snd e)) (extracted_layers t blackbox db)).
Proof.
  exists ex_tech, false, ex_db, 6%nat, (LvsLayer 9 "l9" None). repeat split.
  - exact ex_db_wf.
  - discriminate.
  - vm_compute. intuition discriminate.
Qed.
Print Assumptions C54_unknown_refuted.
Example C54_case :
  map (fun e => (fst e, map x_name (snd e))) (extracted_layers ex_tech true ex_db) =
    [((68, 20)%Z, ["met1_con"; "met1_ind"]); ((66, 20)%Z, ["poly_con"]); ((68, 16)%Z, ["met1_pin_con"])] /\
  map (fun e => (fst e, map x_name (snd e))) (extracted_layers ex_tech false ex_db) =
    [((68, 20)%Z, ["met1_con"; "met1_ind"]); ((66, 20)%Z, ["poly_con"]); ((66, 120)%Z, ["poly_res"]); ((68, 16)%Z, ["met1_pin_con"])] /\
  map (fun x => (x_name x, x_pair x)) (unnamed_layers ex_tech true ex_db) = [("nwell", (1005, 20)%Z)].
Proof. vm_compute. auto. Qed.

(** ** C67: the shapes of a net are the layer's shapes on that net *)
Theorem C67_layer : forall t blackbox db p, db_wf db ->
  shapes_of_layer t blackbox db p = match sources t blackbox db p with [] => None | _ => Some (all_shapes t blackbox db p) end.
Proof. intros; apply layer_shapes_eq; assumption. Qed.
Print Assumptions C67_layer.
(** each shape of the layer is found for its own net and for no other, and nothing else is found *)
Theorem C67_nets : forall t blackbox db p, db_wf db ->
  match shapes_of_layer t blackbox db p with
  | Some s => forall n, shapes_of_net t blackbox db p n = Some (map fst (filter (fun x : shape => eqb (snd x) n) s))
  | None => forall n, shapes_of_net t blackbox db p n = None
  end.
Proof.
  intros t b db p wf. rewrite (layer_shapes_eq t b db wf). destruct (sources t b db p) eqn:S; intros n; rewrite (net_shapes_eq t b db wf), S; reflexivity.
Qed.
Print Assumptions C67_nets.
(** no shape is lost or shared between nets: over the nets that occur, the counts add up *)
Lemma filter_partition (s : list shape) : forall ns, NoDup ns -> (forall x, In x s -> In (snd x) ns) ->
  fold_right (fun n k => (List.length (filter (fun x : shape => eqb (snd x) n) s) + k)%nat) 0%nat ns = List.length s.
Proof.
  induction s as [|x s IH]; intros ns N C; simpl.
  - clear. induction ns; simpl; auto.
  - rewrite <- (IH ns N) by (intros; apply C; right; assumption).
    assert (I : In (snd x) ns) by (apply C; left; reflexivity). clear - N I. induction ns as [|n ns IHn]; [destruct I|].
    inversion N as [|? ? Nin Nd]; subst. simpl. destruct (eqb (snd x) n) eqn:E; [apply eqb_eq in E|apply eqb_neq in E].
    + simpl. f_equal. f_equal. subst n. clear - Nin. induction ns as [|m ms IH]; simpl; [reflexivity|].
      rewrite IH by (intros C; apply Nin; right; exact C). destruct (eqb (snd x) m) eqn:E; [apply eqb_eq in E; exfalso; apply Nin; left; auto|reflexivity].
    + destruct I as [I|I]; [congruence|]. rewrite (IHn Nd I). lia.
Qed.
Theorem C67_counts : forall t blackbox db p s ns, db_wf db -> shapes_of_layer t blackbox db p = Some s ->
  NoDup ns -> (forall x, In x s -> In (snd x) ns) ->
  fold_right (fun n k => (match shapes_of_net t blackbox db p n with Some r => List.length r | None => 0 end + k)%nat) 0%nat ns = List.length s.
Proof.
  intros t b db p s ns wf E N C. rewrite <- (filter_partition s ns N C). pose proof (C67_nets t b db p wf) as G. rewrite E in G.
  clear - G. induction ns as [|n ns IH]; simpl; [reflexivity|]. rewrite IH, G, map_length. reflexivity.
Qed.
Print Assumptions C67_counts.
Example C67_case :
  shapes_of_layer ex_tech true ex_db (68, 20)%Z = Some [(sq 0 0, "A"); (sq 20 0, "B"); (sq 40 0, "A")] /\
  shapes_of_net ex_tech true ex_db (68, 20)%Z "A" = Some [sq 0 0; sq 40 0] /\
  shapes_of_net ex_tech true ex_db (68, 20)%Z "C" = Some [] /\ shapes_of_net ex_tech true ex_db (66, 120)%Z "A" = None.
Proof. vm_compute. auto. Qed.

(** ** C66: metal geometry reaches the capacitance extractors under its canonical name *)
Theorem C66_regions : forall t shapes substrate metals,
  match layer_regions t shapes substrate metals with
  | Some d =>
      (forall m, In m metals -> canonical_metal t m <> None) /\
      dkeys d = distinct ("VSUBS" :: map fst (present t shapes metals)) /\
      forall cn, In cn (dkeys d) ->
        dget d cn = Some ((if eqb cn "VSUBS" then substrate else []) ++
                          List.concat (map snd (filter (fun e => eqb (fst e) cn) (present t shapes metals))))
  | None => exists m, In m metals /\ canonical_metal t m = None
  end.
Proof.
  intros t shapes sub ms. unfold layer_regions. rewrite regions_eq.
  destruct (forallb (fun m => match canonical_metal t m with Some _ => true | None => false end) ms) eqn:F.
  - assert (K : dkeys (fold_left add_region (present t shapes ms) [("VSUBS", sub)]) = distinct ("VSUBS" :: map fst (present t shapes ms))).
    { rewrite add_region_keys; reflexivity. }
    split; [|split].
    + intros m I. rewrite forallb_forall in F. specialize (F m I). destruct (canonical_metal t m); discriminate.
    + exact K.
    + intros cn I. rewrite K, distinct_In in I. rewrite add_region_get. simpl. unfold eqb at 2. unfold eqb in *. destruct (eq_dec cn "VSUBS") as [->|N]; [reflexivity|].
      destruct I as [I|I]; [congruence|]. apply in_map_iff in I. destruct I as (e & <- & I).
      destruct (map snd (filter (fun e0 : string * list shape => if eq_dec (fst e0) (fst e) then true else false) (present t shapes ms))) eqn:M; [|reflexivity].
      exfalso. apply map_eq_nil in M. assert (J : In e (filter (fun e0 : string * list shape => if eq_dec (fst e0) (fst e) then true else false) (present t shapes ms))).
      { apply filter_In. split; [exact I|]. destruct (eq_dec (fst e) (fst e)); congruence. }
      rewrite M in J. destruct J.
  - assert (G : exists m, In m ms /\ (match canonical_metal t m with Some _ => true | None => false end) = false).
    { clear - F. induction ms as [|m ms IH]; [discriminate|]. simpl in F. apply andb_false_iff in F. destruct F as [F|F]; [exists m; simpl; auto|].
      destruct (IH F) as (m' & I & E). exists m'. simpl. auto. }
    destruct G as (m & I & E). exists m. split; [exact I|]. destruct (canonical_metal t m); [discriminate|reflexivity].
Qed.
Print Assumptions C66_regions.
(** together with C54: all shapes of every LVS layer of a metal's GDS pair arrive *)
Theorem C66_arrives : forall t blackbox db substrate metals d m p l s, db_wf db ->
  layer_regions t (shapes_of_layer t blackbox db) substrate metals = Some d ->
  In m metals -> pair_of t m = Some p -> In l (db_layers db) -> belongs t blackbox db p l = true -> In s (db_shapes db (lv_index l)) ->
  exists cn r, canon_of t p = Some cn /\ dget d cn = Some r /\ In s r.
Proof.
  intros t b db sub ms d m p l s wf E Im Pm Il B Is. pose proof (C66_regions t (shapes_of_layer t b db) sub ms) as G. rewrite E in G.
  destruct G as (Cm & K & Gt). specialize (Cm m Im). unfold canonical_metal in Cm. rewrite Pm in Cm.
  destruct (canon_of t p) as [cn|] eqn:Cn; [|congruence].
  assert (Sh : exists r, shapes_of_layer t b db p = Some r /\ In s r).
  { rewrite (layer_shapes_eq t b db wf). destruct (sources t b db p) as [|x xs] eqn:Sr.
    - exfalso. apply In_nth_error in Il. destruct Il as [i Nt].
      assert (X : In (XLayer i (lv_name l) p (db_shapes db (lv_index l))) (sources t b db p)).
      { unfold sources. apply in_map_iff. exists (i, l). split; [reflexivity|]. apply filter_In. split; [apply enumerate_nth; exact Nt|exact B]. }
      rewrite Sr in X. destruct X.
    - eexists. split; [reflexivity|]. unfold all_shapes. apply in_flat_map. exists l. rewrite B. auto. }
  destruct Sh as (r & Sh & Ir).
  assert (P : In (cn, r) (present t (shapes_of_layer t b db) ms)).
  { unfold present. apply in_flat_map. exists m. split; [exact Im|]. unfold canonical_metal, metal_shapes. rewrite Pm, Cn, Sh. left; reflexivity. }
  assert (Kc : In cn (dkeys d)). { rewrite K, distinct_In. right. apply (in_map fst) in P. exact P. }
  exists cn. eexists. split; [reflexivity|]. split; [apply (Gt cn Kc)|]. apply in_app_iff. right. apply in_concat. exists r. split; [|exact Ir].
  apply in_map_iff. exists (cn, r). split; [reflexivity|]. apply filter_In. split; [exact P|]. apply eqb_refl.
Qed.
Print Assumptions C66_arrives.
Example C66_case :
  option_map (map (fun e => (fst e, map snd (snd e)))) (layer_regions ex_tech (shapes_of_layer ex_tech true ex_db) [(sq 0 0, "")] ["poly_con"; "met1_con"; "cap"]) =
    Some [("VSUBS", [""]); ("poly", ["A"]); ("met1", ["A"; "B"; "A"])] /\
  layer_regions ex_tech (shapes_of_layer ex_tech true ex_db) [] ["poly_con"; "met9"] = None /\
  layer_regions ex_tech (shapes_of_layer ex_tech true ex_db) [] ["text"] = None.
Proof. vm_compute. auto. Qed.

(** ** C56: extraction mode gating *)
Lemma add_entry_networks es : forall c, r_networks (fold_left add_entry es c) = r_networks c.
Proof. induction es as [|[x|x|x] es IH]; intros c; simpl; rewrite ?IH; reflexivity. Qed.
Section Gating.
Variables (t : tech) (shapes : gds -> option (list shape)) (substrate : list shape).
Notation run ov sw rs mode ms := (extract_cell t shapes substrate ov sw rs mode ms new_cell).
(** without capacitance extraction all capacitance tables stay empty, whatever the extractors would find *)
Theorem C56_no_capacitance : forall ov sw rs ms r, run ov sw rs R ms = Some r ->
  overlap_table r = [] /\ sidewall_table r = [] /\ sideoverlap_table r = [] /\ rs = Some (r_networks r).
Proof.
  intros ov sw rs ms r. unfold extract_cell. destruct (layer_regions t shapes substrate ms); [|discriminate]. simpl.
  destruct rs; [|discriminate]. intros E; injection E as <-. auto.
Qed.
(** without resistance extraction there are no resistor networks, and its failure does not matter *)
Theorem C56_no_resistance : forall ov sw rs ms, run ov sw rs CC ms = run ov sw None CC ms /\
  forall r, run ov sw rs CC ms = Some r -> r_networks r = [].
Proof.
  intros ov sw rs ms. unfold extract_cell. destruct (layer_regions t shapes substrate ms); [|split; [reflexivity|discriminate]]. simpl.
  destruct (ov (dkeys d) d), (sw (dkeys d) d); split; try reflexivity; try discriminate.
  intros r E; injection E as <-. rewrite !add_entry_networks. reflexivity.
Qed.
(** in the combined mode both parts are what the single modes give *)
Theorem C56_both : forall ov sw rs ms,
  run ov sw rs RC ms =
  match run ov sw rs CC ms, run ov sw rs R ms with
  | Some c, Some r => Some (CellResults (overlap_table c) (sidewall_table c) (sideoverlap_table c) (r_networks r))
  | _, _ => None
  end.
Proof.
  intros ov sw rs ms. unfold extract_cell. destruct (layer_regions t shapes substrate ms); [|reflexivity]. simpl.
  destruct (ov (dkeys d) d), (sw (dkeys d) d); try reflexivity. destruct rs; reflexivity.
Qed.
(** the capacitance part is what the two extractors find on the cell's regions, in that order *)
Theorem C56_capacitance : forall ov sw rs ms d a b, layer_regions t shapes substrate ms = Some d ->
  ov (dkeys d) d = Some a -> sw (dkeys d) d = Some b ->
  run ov sw rs CC ms = Some (fold_left add_entry (a ++ b) new_cell).
Proof. intros ov sw rs ms d a b L A B. unfold extract_cell. rewrite L. simpl. rewrite A, B, fold_left_app. reflexivity. Qed.
End Gating.
Print Assumptions C56_no_capacitance.
Print Assumptions C56_no_resistance.
Print Assumptions C56_both.
Print Assumptions C56_capacitance.
Definition ex_net : rnetwork := RNetwork [RNode 1 "A"; RNode 2 "A"] [].
Definition ex_sw : list string -> dict string (list shape) -> option (list entry) :=
  fun names _ => Some (map (fun n => ESidewall (SidewallCap (n, "A", "B") 1 1 1)) names).
Example C56_case :
  option_map (fun r => (List.length (sidewall_table r), List.length (r_networks r)))
    (extract_cell ex_tech (shapes_of_layer ex_tech true ex_db) [] ex_sw ex_sw (Some [ex_net]) RC ["poly_con"; "met1_con"] new_cell) = Some (3, 1)%nat.
Proof. vm_compute. reflexivity. Qed.

(** ** C68: pins *)
Section Pins.
Variables (t : tech) (blackbox : bool) (db : lvsdb) (labels : gds -> list (string * point)) (inside : poly -> point -> bool) (lid : gds -> nat).
Notation pins := (pins_by_layer t blackbox db labels inside lid).
(** the pins of each drawn layer, and nothing else *)
Theorem C68_pins : db_wf db -> forall d, pins = Some d ->
  forall p, dget d p = match expected_pins t blackbox db labels inside lid p with [] => None | ps => Some ps end.
Proof.
  intros wf d E p. rewrite (pins_eq _ _ _ _ _ _ wf) in E. destruct (existsb _ _) eqn:X; [discriminate|]. injection E as <-.
  rewrite group_get. simpl. rewrite (pins_get _ _ _ _ _ _ wf p X). reflexivity.
Qed.
(** the preparation fails exactly if a drawn layer in use has its pin shapes on several LVS layers *)
Theorem C68_fails : db_wf db ->
  (pins = None <-> exists q p, In q (used_pairs t blackbox db) /\ pin_target t q = Some p /\ (2 <= List.length (pin_sources t blackbox db p))%nat).
Proof.
  intros wf. rewrite (pins_eq _ _ _ _ _ _ wf). destruct (existsb _ _) eqn:X.
  - split; [intros _|reflexivity]. apply existsb_exists in X. destruct X as (q & I & F). unfold pin_fails in F.
    destruct (pin_target t q) as [p|] eqn:P; [|discriminate]. exists q, p. repeat split; auto. unfold pin_conflict in F.
    destruct (pin_sources t blackbox db p) as [|x [|y r]]; try discriminate. simpl; lia.
  - split; [discriminate|]. intros (q & p & I & P & L). assert (Y : existsb (pin_fails t blackbox db) (used_pairs t blackbox db) = true).
    { apply existsb_exists. exists q. split; [exact I|]. unfold pin_fails. rewrite P. unfold pin_conflict.
      destruct (pin_sources t blackbox db p) as [|x [|y r]]; simpl in L; [lia|lia|reflexivity]. }
    congruence.
Qed.
(** every pin comes from a text on the label layer that lies on a pin shape, and has that shape's net and the drawn layer's name *)
Theorem C68_sound : db_wf db -> forall d p ps v, pins = Some d -> dget d p = Some ps -> In v ps ->
  In (pin_label v, pin_point v) (texts_of t labels p) /\
  (exists s, In s (flat_map x_shapes (pin_sources t blackbox db p)) /\ inside (fst s) (pin_point v) = true /\ snd s = pin_net v) /\
  drawn t (pin_canonical v) = Some p.
Proof.
  intros wf d p ps v E G I. rewrite (C68_pins wf _ E p) in G.
  assert (J : In v (expected_pins t blackbox db labels inside lid p)) by (destruct (expected_pins t blackbox db labels inside lid p); [discriminate|congruence]).
  unfold expected_pins in J. apply in_flat_map in J. destruct J as (q & Iq & J). destruct (eqb (pin_target t q) (Some p)) eqn:T; [|destruct J]. apply eqb_eq in T.
  apply in_flat_map in J. destruct J as (x & _ & J). apply in_flat_map in J. destruct J as (tx & It & J). unfold pin_for in J.
  destruct (find _ _) as [s|] eqn:F; [|destruct J]. destruct (last_such _ (computed t)) as [c|] eqn:L; [|destruct J]. destruct J as [<-|[]]. simpl.
  apply find_some in F. split; [destruct tx; exact It|]. split; [exists s; intuition|].
  unfold pin_target, canon_of in T. rewrite L in T. exact T.
Qed.
(** every text that lies on a pin shape of a layer in use gives a pin *)
Theorem C68_complete : db_wf db -> forall d q p tx s, pins = Some d ->
  In q (used_pairs t blackbox db) -> pin_target t q = Some p -> In tx (texts_of t labels p) ->
  In s (flat_map x_shapes (pin_sources t blackbox db p)) -> inside (fst s) (snd tx) = true ->
  exists ps v, dget d p = Some ps /\ In v ps /\ pin_label v = fst tx /\ pin_point v = snd tx /\ pin_layer v = lid q.
Proof.
  intros wf d q p tx s E Iq T It Is In_. assert (X : exists v, In v (expected_pins t blackbox db labels inside lid p) /\ pin_label v = fst tx /\ pin_point v = snd tx /\ pin_layer v = lid q).
  { destruct (used_canon t blackbox db q Iq) as (c & C).
    destruct (find (fun s : shape => inside (fst s) (snd tx)) (flat_map x_shapes (pin_sources t blackbox db p))) as [s'|] eqn:F.
    - exists (Pin (fst tx) (snd s') (lid q) (cl_orig c) (cl_name c) (snd tx)). split; [|auto]. unfold expected_pins. apply in_flat_map. exists q. split; [exact Iq|].
      rewrite T, eqb_refl. apply in_flat_map.
      assert (S : exists x, In x (sources t blackbox db q)).
      { pose proof (extracted_get t blackbox db wf q) as G. rewrite <- (extracted_keys t blackbox db wf) in Iq. destruct (dkeys_dget _ _ Iq) as (xs & D). rewrite D in G.
        destruct (sources t blackbox db q) as [|x r]; [discriminate|]. exists x. left; reflexivity. }
      destruct S as (x & Sx). exists x. split; [exact Sx|]. apply in_flat_map. exists tx. split; [exact It|]. unfold pin_for. rewrite F, C. left; reflexivity.
    - exfalso. apply (find_none _ _ F) in Is. congruence. }
  destruct X as (v & I & A). exists (expected_pins t blackbox db labels inside lid p), v. rewrite (C68_pins wf _ E p).
  split; [|auto]. destruct (expected_pins t blackbox db labels inside lid p); [destruct I|reflexivity].
Qed.
(** a layer with a single LVS layer has one pin per text on a pin shape, in text order *)
Theorem C68_once : db_wf db -> forall d q p x, pins = Some d ->
  (forall q', In q' (used_pairs t blackbox db) -> (pin_target t q' = Some p <-> q' = q)) -> In q (used_pairs t blackbox db) -> sources t blackbox db q = [x] ->
  map (fun v => (pin_label v, pin_point v)) (match dget d p with Some ps => ps | None => [] end) =
  filter (fun tx => existsb (fun s : shape => inside (fst s) (snd tx)) (flat_map x_shapes (pin_sources t blackbox db p))) (texts_of t labels p).
Proof.
  intros wf d q p x E U Iq S. rewrite (C68_pins wf _ E p).
  assert (X : expected_pins t blackbox db labels inside lid p = flat_map (pin_for t inside lid q (flat_map x_shapes (pin_sources t blackbox db p))) (texts_of t labels p)).
  { unfold expected_pins. assert (N : NoDup (used_pairs t blackbox db)) by (unfold used_pairs; apply distinct_NoDup).
    generalize dependent (used_pairs t blackbox db). intros qs. induction qs as [|q' qs IH]; intros U I N; [destruct I|]. simpl.
    inversion N as [|? ? Nin Nd]; subst. destruct (eq_dec q' q) as [->|Ne].
    - assert (T : pin_target t q = Some p) by (apply U; simpl; auto). rewrite T, eqb_refl, S. simpl. rewrite app_nil_r.
      replace (flat_map _ qs) with (@nil pin); [apply app_nil_r|]. symmetry.
      assert (Z : forall q', In q' qs -> pin_target t q' <> Some p).
      { intros q' I' C. apply U in C; [|right; exact I']. subst q'. contradiction. }
      clear - Z. induction qs as [|a qs IH]; simpl; [reflexivity|]. rewrite (proj2 (eqb_false (pin_target t a) (Some p)) (Z a (or_introl eq_refl))). apply IH. intros; apply Z; right; assumption.
    - destruct I as [I|I]; [congruence|]. rewrite (proj2 (eqb_false (pin_target t q') (Some p))); [|intros C; apply U in C; [congruence|left; reflexivity]]. simpl.
      apply IH; auto. intros q2 I2. apply U. right; exact I2. }
  rewrite X. destruct (used_canon t blackbox db q Iq) as (c & C). generalize (flat_map x_shapes (pin_sources t blackbox db p)). intros ss.
  assert (Y : forall txs, map (fun v => (pin_label v, pin_point v)) (flat_map (pin_for t inside lid q ss) txs) =
     filter (fun tx => existsb (fun s : shape => inside (fst s) (snd tx)) ss) txs).
  { induction txs as [|tx txs IH]; simpl; [reflexivity|]. rewrite map_app, IH. unfold pin_for. rewrite C.
    destruct (find (fun s : shape => inside (fst s) (snd tx)) ss) as [s|] eqn:F.
    - apply find_some in F. rewrite (proj2 (existsb_exists _ ss)) by (exists s; exact F). destruct tx; reflexivity.
    - destruct (existsb _ ss) eqn:Z; [|reflexivity]. apply existsb_exists in Z. destruct Z as (s & I & Q). apply (find_none _ _ F) in I. congruence. }
  rewrite <- Y. destruct (flat_map (pin_for t inside lid q ss) (texts_of t labels p)); reflexivity.
Qed.
End Pins.
Print Assumptions C68_pins.
Print Assumptions C68_fails.
Print Assumptions C68_sound.
Print Assumptions C68_complete.
Print Assumptions C68_once.

Definition ex_inside (p : poly) (q : point) : bool :=
  match hull p with (x, y) :: _ => (x <=? fst q)%Z && (fst q <=? x + 10)%Z && (y <=? snd q)%Z && (snd q <=? y + 10)%Z | [] => false end.
Definition ex_labels (p : gds) : list (string * point) := if eqb p (68, 5)%Z then [("IN", (5, 5)%Z); ("OUT", (25, 5)%Z); ("note", (99, 99)%Z)] else [].
Definition ex_lid (p : gds) : nat := if eqb p (68, 20)%Z then 0%nat else 9%nat.
(** one text on a layer that consists of two LVS layers gives two equal pins: "one pin per text" fails *)
Theorem C68_repeated_refuted : exists t blackbox db labels inside lid d p tx, db_wf db /\ pins_by_layer t blackbox db labels inside lid = Some d /\
  texts_of t labels p = [tx] /\ exists v, dget d p = Some [v; v].
Proof.
  exists ex_tech, true, ex_db, (fun p => if eqb p (68, 5)%Z then [("IN", (5, 5)%Z)] else []), ex_inside, ex_lid. do 2 eexists. exists ("IN", (5, 5)%Z).
  split; [exact ex_db_wf|]. split; [vm_compute; reflexivity|]. split; [|eexists]; [instantiate (1 := (68, 20)%Z)|]; vm_compute; reflexivity.
Qed.
Print Assumptions C68_repeated_refuted.
Definition ex_db1 : lvsdb := LvsDB [LvsLayer 2 "met1_con" None; LvsLayer 7 "met1_pin_con" None] (db_shapes ex_db).
Example C68_case :
  option_map (map (fun e => (fst e, map (fun v => (pin_label v, pin_net v, pin_canonical v, pin_lvs v)) (snd e)))) (pins_by_layer ex_tech true ex_db1 ex_labels ex_inside ex_lid) =
  Some [((68, 20)%Z, [("IN", "A", "met1", "met1_ind"); ("OUT", "B", "met1", "met1_ind")])] /\
  (forall q', In q' (used_pairs ex_tech true ex_db1) -> (pin_target ex_tech q' = Some (68, 20)%Z <-> q' = (68, 20)%Z)) /\
  List.length (sources ex_tech true ex_db1 (68, 20)%Z) = 1%nat.
Proof.
  split; [vm_compute; reflexivity|]. split; [|vm_compute; reflexivity].
  intros q' [<-|[<-|[]]]; vm_compute; split; intros E; try discriminate; reflexivity.
Qed.
(** pin shapes on two LVS layers *)
Example C68_fails_case :
  pins_by_layer (Tech (CLayer "met1_pin2" (68, 16)%Z KPin PMetal "met1.pin" :: computed ex_tech) (layers ex_tech)) true
    (LvsDB (LvsLayer 1 "met1_pin2" None :: db_layers ex_db) (fun i => match i with 1%nat => [(sq 0 0, "A")] | _ => db_shapes ex_db i end)) ex_labels ex_inside ex_lid = None.
Proof. vm_compute. reflexivity. Qed.

(** ** C69: devices *)
(** if the preparation succeeds, all devices are there in order with their parameters and exactly their terminals *)
Theorem C69_devices : forall t blackbox db ds dd, NoDup (map kd_name ds) -> devices_by_name t blackbox db ds = Some dd ->
  Forall2 (fun d v => fst v = kd_name d /\ device_matches t blackbox db d (snd v)) ds dd.
Proof. intros t b db ds dd N E. apply (devices_ok t b db) in E; [|exact N|auto]. destruct E as (vs & -> & F). exact F. Qed.
Print Assumptions C69_devices.
(** it succeeds exactly if all terminals are connected and their shapes lie on layers that were not left out and have a name *)
Theorem C69_succeeds : forall t blackbox db ds, db_wf db ->
  (devices_by_name t blackbox db ds <> None <->
   forall d, In d ds ->
     (forall td, In td (kd_terminals d) -> kd_net d (fst td) <> None) /\
     (forall e i s, In e (terminal_refs d) -> In (i, s) (tr_shapes (snd e)) -> describable t blackbox db i)).
Proof.
  intros t b db ds wf. unfold devices_by_name. generalize (@nil (string * device)) as dd. induction ds as [|d ds IH]; intros dd; cbn [fold_left].
  - split; [intros _ d []|discriminate].
  - destruct (device_step t b db (Some dd) d) as [dd1|] eqn:S.
    + assert (Q : device_step t b db (Some dd) d <> None) by congruence. apply (device_step_total t b db wf) in Q. rewrite IH. split.
      * intros A d' [<-|I]; [exact Q|apply A, I].
      * intros A d' I. apply A. right; exact I.
    + rewrite devices_none. split; [congruence|]. intros A. exfalso. apply (proj2 (device_step_total t b db wf dd d)); [|exact S]. apply A. left; reflexivity.
Qed.
Print Assumptions C69_succeeds.
(** in particular a single unconnected terminal makes the whole preparation fail, although the code means to go on *)
Theorem C69_unconnected_refuted : exists t blackbox db ds d td, db_wf db /\ In d ds /\ In td (kd_terminals d) /\ kd_net d (fst td) = None /\
  devices_by_name t blackbox db ds = None /\ devices_by_name t blackbox db (filter (fun d' => negb (eqb (kd_name d') (kd_name d))) ds) <> None.
Proof.
  exists ex_tech, true, ex_db, [KDevice 1 "M1" "NMOS" "D$NMOS" [] [(0%nat, "S")] (fun _ => None)], (KDevice 1 "M1" "NMOS" "D$NMOS" [] [(0%nat, "S")] (fun _ => None)), (0%nat, "S").
  split; [exact ex_db_wf|]. simpl. repeat split; auto. vm_compute. discriminate.
Qed.
Print Assumptions C69_unconnected_refuted.
(** one net connects a terminal of each of two devices *)
Definition ex_refs : list tref :=
  [ TRef "M1" 0 [(2%nat, [(sq 0 0, None)])]; TRef "M2" 0 [(6%nat, [(sq 40 0, None)])]; TRef "M2" 1 [(2%nat, [(sq 20 0, None)]); (3%nat, [(sq 0 20, None)])] ].
Definition ex_dev (id : nat) (name : string) : kdevice := KDevice id name "NMOS" "D$NMOS" [(0%nat, "W", 1%Qc)] [(0%nat, "S"); (1%nat, "D")] (fun i => Some ("A", ex_refs)).
Example C69_case :
  option_map (map (fun e => (fst e, map (fun v => (tm_device v, tm_id v, tm_name v, tm_net v, map (fun r => (lr_layer r, lr_canonical r)) (tm_regions v))) (dv_terminals (snd e)))))
    (devices_by_name ex_tech true ex_db [ex_dev 1 "M1"; ex_dev 2 "M2"]) =
  Some [("M1", [(1, 0, "S", "A", [(0, "met1")])]); ("M2", [(2, 0, "S", "A", [(2, "met1")]); (2, 1, "D", "A", [(0, "met1"); (1, "poly")])])]%nat.
Proof. vm_compute. reflexivity. Qed.
(** terminal shapes on a layer that is left out *)
Example C69_hidden_case :
  let d := KDevice 1 "R1" "RES" "D$RES" [] [(0%nat, "A")] (fun _ => Some ("A", [TRef "R1" 0 [(5%nat, [(sq 5 5, None)])]])) in
  devices_by_name ex_tech true ex_db [d] = None /\ devices_by_name ex_tech false ex_db [d] <> None.
Proof. vm_compute. split; [reflexivity|discriminate]. Qed.
