(** Proofs for the composition of the 2.5D engine. *)
From Coq Require Import String ZArith Permutation Sorted Lia.
From Verif Require Import PyBase PyLib ER_Model ER_Spec ER_Proofs ER_Props E2_Model E2_Spec.
From Verif Require OV_Model OV_Spec OV_Props SF_Model SF_Spec SF_Proofs SF_Props LV_Model LV_Props NX_Model NX_Spec NX_Props UT_Model.
Local Open Scope Qc_scope.

(** ** collect and together *)
Lemma collect_map {A B} (f : A -> option (list B)) (g : A -> list B) l :
  (forall x, In x l -> f x = Some (g x)) -> collect f l = Some (flat_map g l).
Proof.
  induction l as [|x l IH]; intros H; cbn; [reflexivity|].
  rewrite (H x (or_introl eq_refl)), IH; [reflexivity|]. intros y Hy. apply H. now right.
Qed.
Lemma collect_app {A B} (f : A -> option (list B)) l m : collect f (l ++ m) =
  match collect f l, collect f m with Some a, Some b => Some (a ++ b) | _, _ => None end.
Proof.
  induction l as [|x l IH]; cbn; [destruct (collect f m); reflexivity|].
  destruct (f x); [|reflexivity]. rewrite IH. destruct (collect f l), (collect f m); try reflexivity.
  now rewrite <- app_assoc.
Qed.
Lemma collect_pair {I A B} (iv : I) (f : I * A -> option (list B)) l : collect f (map (pair iv) l) = collect (fun e => f (iv, e)) l.
Proof. induction l as [|x l IH]; cbn; [reflexivity|]. destruct (f (iv, x)); [|reflexivity]. now rewrite IH. Qed.

Definition rep (l : list LV_Model.entry) : list report :=
  map (fun e => report_of (match e with LV_Model.EOverlap x => AddOverlap x | LV_Model.ESidewall x => AddSidewall x
                                      | LV_Model.ESideoverlap x => AddSideOverlap x end)) l.
Lemma rep_app l m : rep (l ++ m) = (rep l ++ rep m)%list.
Proof. apply map_app. Qed.

Lemma collect_together {A} (f : A -> option (list LV_Model.entry)) (P : A -> list report -> Prop) l :
  (forall x, In x l -> exists e, f x = Some e /\ P x (rep e)) ->
  exists e, collect f l = Some e /\ together P l (rep e).
Proof.
  induction l as [|x l IH]; intros H; cbn.
  - exists []. split; [reflexivity|]. exists []. split; constructor.
  - destruct (H x (or_introl eq_refl)) as (e & -> & Hp).
    destruct IH as (e' & -> & ls & Hf & Hperm); [intros y Hy; apply H; now right|].
    exists (e ++ e')%list. split; [reflexivity|]. exists (rep e :: ls). split; [now constructor|].
    rewrite rep_app. cbn. now apply Permutation_app_head.
Qed.
Lemma flat_map_together {A} (g : A -> list LV_Model.entry) (P : A -> list report -> Prop) l :
  (forall x, In x l -> P x (rep (g x))) -> together P l (rep (flat_map g l)).
Proof.
  intros H. destruct (collect_together (fun x => Some (g x)) P l) as (e & E & T).
  - intros x Hx. exists (g x). auto.
  - rewrite (collect_map _ g) in E by reflexivity. injection E as <-. exact T.
Qed.
Lemma together_perm {A} (P : A -> list report -> Prop) l m m' : together P l m -> Permutation m m' -> together P l m'.
Proof. intros (ls & F & H) Hp. exists ls. split; [exact F|]. rewrite <- Hp. exact H. Qed.

Section Engine.
Context {pt : Type}.
Variables (area : OV_Model.region pt -> Qc) (dbu : Qc) (substrate : string).
Variables (overlaps sideoverlaps : dict string (dict string Qc)) (substrate_caps : list string).
Variable sidewalls : dict string (Qc * Qc).
Variable cut : SF_Model.spoly -> list SF_Model.spoly -> list SF_Model.spoly.
Variable fringe_cap : Z -> Z -> Z -> Qc -> Qc -> option Qc.
Variable shield_top : Z.
Variable names : list string.
Notation layer i := (nth i names EmptyString).

(** ** polygons *)
Lemma polygon_ok idx c : OV_Spec.measure area ->
  polygon_specified substrate overlaps names idx c ->
  polygon_part area dbu substrate overlaps names idx c
    (rep (map (fun e => LV_Model.EOverlap (OV_Model.em_cap e))
            (OV_Model.neighbors area dbu substrate overlaps names idx (fst c) (snd c)))).
Proof using area dbu substrate overlaps names.
  clear. intros Hm Hs. destruct (OV_Props.C15_overlap_first_cover pt area dbu substrate overlaps names idx (fst c) (snd c) Hm Hs)
    as (which & Hsort & Hin & HF).
  exists which. split; [exact Hsort|]. split.
  - intros i. rewrite Hin. split; [tauto|]. intros H. split; [|exact H].
    destruct H as (v & (k & p & c0 & E & _) & _). apply nth_error_Some. rewrite E. discriminate.
  - unfold rep. rewrite map_map. induction HF as [|i e w l H HF IH]; [constructor|]. cbn [map]. constructor; [|].
    + destruct H as (k & p & v & E & W & _ & _ & _ & Ec). exists k, p, v. split; [exact E|]. split; [exact W|].
      cbn [report_of]. rewrite Ec. reflexivity.
    + clear -HF. induction HF as [|i e w l H HF IH]; [constructor|]. cbn [map]. constructor; [|exact IH].
      destruct H as (k & p & v & E & W & _ & _ & _ & Ec). exists k, p, v. split; [exact E|]. split; [exact W|].
      cbn [report_of]. rewrite Ec. reflexivity.
Qed.

(** ** events of an interval *)
Definition as_fringe (f : nat * list SF_Model.spoly * list SF_Model.spoly * option SF_Model.spoly) : SF_Model.event :=
  let '(c, ps, sh, l) := f in SF_Model.EvFringe c ps sh l.
Lemma events_split evs :
  Permutation evs (map SF_Model.EvSidewall (SF_Spec.sidewalls_of evs) ++ map as_fringe (SF_Spec.fringes evs)).
Proof.
  induction evs as [|e evs IH]; [constructor|]. destruct e as [p|c ps sh l]; cbn.
  - constructor. exact IH.
  - apply Permutation_cons_app. exact IH.
Qed.
Lemma collect_perm {A} (f : A -> option (list LV_Model.entry)) l m : Permutation l m ->
  forall e, collect f m = Some e -> exists e', collect f l = Some e' /\ Permutation (rep e') (rep e).
Proof.
  induction 1; intros e0 E.
  - exists e0. split; [exact E|reflexivity].
  - cbn in *. destruct (f x) as [a|]; [|discriminate]. destruct (collect f l') as [b|]; [|discriminate]. injection E as <-.
    destruct (IHPermutation b eq_refl) as (b' & -> & P). eexists. split; [reflexivity|]. rewrite !rep_app. now apply Permutation_app_head.
  - cbn in *. destruct (f x) as [a|]; [|discriminate]. destruct (f y) as [b|]; [|discriminate].
    destruct (collect f l) as [c|]; [|discriminate]. injection E as <-. eexists. split; [reflexivity|].
    rewrite !rep_app, !app_assoc. apply Permutation_app_tail, Permutation_app_comm.
  - destruct (IHPermutation2 e0 E) as (e1 & E1 & P1). destruct (IHPermutation1 e1 E1) as (e2 & E2 & P2).
    exists e2. split; [exact E2|]. now rewrite P2.
Qed.
Notation ev_entries idx net iv := (event_entries dbu substrate overlaps sideoverlaps substrate_caps sidewalls cut fringe_cap names idx net iv).

Lemma cap_reports ins ins_net out len oc sc l :
  map (fun c => report_of (AddSideOverlap c)) (flat_map (SF_Spec.cap_of fringe_cap ins ins_net out len oc sc) l)
  = flat_map (fun e => match fringe_cap len (SF_Spec.near (snd e)) (SF_Spec.far (snd e)) oc sc with
                       | Some v => if qltb (Q2Qc (1 # 10000)) v then [(ins_net, fst e, v)] else []
                       | None => []
                       end) l.
Proof.
  induction l as [|e l IH]; [reflexivity|]. cbn [flat_map]. rewrite map_app, IH. f_equal. unfold SF_Spec.cap_of.
  destruct (fringe_cap _ _ _ _ _) as [v|]; [|reflexivity]. destruct (qltb _ _); reflexivity.
Qed.

Lemma interval_ok idx net iv pbc : (idx < List.length names)%nat ->
  interval_specified dbu substrate overlaps sideoverlaps substrate_caps sidewalls cut fringe_cap shield_top names idx net (iv, pbc) ->
  exists evs e, SF_Model.on_interval (List.length names) idx shield_top pbc = Some evs /\
    collect (ev_entries idx net iv) evs = Some e /\
    interval_part dbu substrate overlaps sideoverlaps substrate_caps sidewalls cut fringe_cap shield_top names idx net (iv, pbc) (rep e).
Proof.
  intros Hi (Hp & Hl & Hsw & Hfr). cbn [fst snd] in *.
  destruct (SF_Props.C20_no_exception (List.length names) idx shield_top pbc) as (evs & Eon).
  { intros k ps Hk. apply Hl. destruct Hp as [Hw _]. now apply In_dget. }
  destruct (SF_Proofs.interval_main (List.length names) idx shield_top Hi pbc evs Hp Eon) as (lateral & H1 & H2 & H3 & H4 & H5).
  assert (HL : lateral_shield shield_top names idx pbc lateral).
  { destruct lateral as [l|]; cbn; [|auto]. destruct (H5 l eq_refl) as (p & [[x1 y1] [x2 y2]] & d & A & B & C & D & ->).
    exists p, d, x1, y1, x2, y2. auto 10. }
  (* sidewall *)
  assert (HSW : exists e1, collect (ev_entries idx net iv) (map SF_Model.EvSidewall (SF_Spec.sidewalls_of evs)) = Some e1 /\
                  sidewall_part dbu sidewalls names idx net iv pbc (rep e1)).
  { unfold sidewall_part. destruct (dget pbc idx) as [ps|] eqn:Eps.
    - destruct H3 as (p & d & Esw & Hn). rewrite Esw. cbn [map collect].
      assert (Hin : In p ps). { destruct Hn as (_ & bf & af & -> & _). apply in_or_app. right. now left. }
      destruct Hn as (Hd & Hn). destruct Hd as (y & Hy & Ey).
      assert (Hne : SF_Model.nearest_edge p <> None).
      { destruct (Hl idx ps Eps (or_introl eq_refl)) as [_ HF]. rewrite Forall_forall in HF. now apply HF. }
      unfold event_entries, SF_Model.emit_sidewall. destruct (eqb net (SF_Model.sp_net p)) eqn:En.
      + apply eqb_eq in En. exists []. split; [reflexivity|]. exists p, d, y. split; [split; [exists y; auto|exact Hn]|].
        split; [exact Hy|]. split; [reflexivity|]. intros C. destruct (C En).
      + pose proof En as En'. apply eqb_neq in En. destruct (Hsw ps p y eq_refl Hin En Hy) as (c & off & Ec & Hz).
        destruct (SF_Model.emit_sidewall dbu sidewalls (layer idx) net iv p) as [r|] eqn:Eem.
        * destruct iv as [a b].
          destruct (SF_Props.C18_sidewall_value dbu sidewalls (layer idx) net a b p r c off y Ec Hy Eem) as [_ R].
          destruct (R En) as (_ & cap & -> & Ek & Ev). unfold SF_Model.emit_sidewall in Eem. rewrite En' in Eem. rewrite Eem.
          exists [LV_Model.ESidewall cap]. split; [reflexivity|]. exists p, d, y. split; [split; [exists y; auto|exact Hn]|].
          split; [exact Hy|]. split; [intros C; destruct (En C)|]. intros _. exists c, off, (sw_value cap).
          split; [exact Ec|]. split; [|exact Ev]. cbn [rep map report_of]. rewrite Ek. reflexivity.
        * exfalso. unfold SF_Model.emit_sidewall in Eem. rewrite En', Ec in Eem. destruct (SF_Model.nearest_edge p) as [ne|]; [|now apply Hne].
          assert (Hpp : SF_Spec.proper p). { unfold SF_Spec.proper. destruct Hy as [[x H] _]. intros H0. rewrite H0 in H. destruct H. }
          assert (Ey2 : Z.min (SF_Model.bbox_lo p) (SF_Model.bbox_hi p) = y).
          { rewrite (SF_Proofs.lowest_unique p y (SF_Model.bbox_lo p) Hy (SF_Proofs.bbox_lo_lowest p Hpp)). apply Z.min_l, SF_Proofs.bbox_le. }
          rewrite Ey2 in Eem. apply qeqb_false in Hz. rewrite Hz in Eem. discriminate Eem.
    - rewrite H3. exists []. split; reflexivity. }
  destruct HSW as (e1 & E1 & P1).
  (* fringes *)
  assert (HFR : exists e2, collect (ev_entries idx net iv) (map as_fringe (SF_Spec.fringes evs)) = Some e2 /\
     together (fringe_part substrate overlaps sideoverlaps substrate_caps cut fringe_cap names idx net iv pbc lateral)
       (map (fun f => fst (fst (fst f))) (SF_Spec.fringes evs)) (rep e2)).
  { assert (G : forall fs, (forall f, In f fs -> In f (SF_Spec.fringes evs)) ->
       exists e2, collect (ev_entries idx net iv) (map as_fringe fs) = Some e2 /\
         together (fringe_part substrate overlaps sideoverlaps substrate_caps cut fringe_cap names idx net iv pbc lateral)
           (map (fun f => fst (fst (fst f))) fs) (rep e2)).
    { induction fs as [|[[[c ps] sh] l] fs IH]; intros Hs; cbn [map collect].
      - exists []. split; [reflexivity|]. exists []. split; constructor.
      - destruct IH as (e2 & -> & ls & HF & HP); [intros f Hf; apply Hs; now right|].
        pose proof (Hs _ (or_introl eq_refl)) as Hf. apply H1 in Hf. destruct Hf as (Hc & Hne & Eps & -> & ->).
        assert (Hshield : shield_of idx pbc lateral c (SF_Model.fringe_shield (List.length names) idx pbc lateral c)).
        { intros s. now apply SF_Proofs.shield_in. }
        destruct (Hfr c ps Hc Hne Eps) as (oc & sc & Hspec & Hpieces). destruct iv as [a b].
        destruct (SF_Props.C21_fringe_every_piece substrate overlaps sideoverlaps substrate_caps cut fringe_cap (layer idx) net (layer c) a b ps
                    (SF_Model.fringe_shield (List.length names) idx pbc lateral c) oc sc Hspec) as (caps & Ecaps & Pcaps).
        { intros e He. apply (Hpieces _ _ e HL Hshield He). }
        cbn [as_fringe fst snd]. unfold event_entries. rewrite Ecaps.
        exists (map LV_Model.ESideoverlap caps ++ e2)%list. split; [reflexivity|].
        exists (rep (map LV_Model.ESideoverlap caps) :: ls). split; [|rewrite rep_app; now apply Permutation_app_head].
        constructor; [|exact HF]. exists ps, (SF_Model.fringe_shield (List.length names) idx pbc lateral c), oc, sc.
        split; [exact Eps|]. split; [exact Hshield|]. split; [exact Hspec|].
        unfold rep. rewrite map_map. cbn [fst snd] in *. unfold edge_net.
        rewrite <- (cap_reports (layer idx) (if eqb (layer idx) substrate then substrate else net) (layer c) (b - a)%Z oc sc).
        apply Permutation_map. exact Pcaps. }
    apply G. auto. }
  destruct HFR as (e2 & E2 & P2).
  destruct (collect_perm (ev_entries idx net iv) evs _ (events_split evs) (e1 ++ e2)) as (e & E & P).
  { rewrite collect_app, E1, E2. reflexivity. }
  exists evs, e. split; [exact Eon|]. split; [exact E|]. rewrite rep_app in P.
  exists lateral, (map (fun f => fst (fst (fst f))) (SF_Spec.fringes evs)), (rep e1), (rep e2).
  split; [exact P1|]. split; [exact HL|]. split; [|split; [exact P2|exact P]].
  split; [exact H2|]. intros c. cbn [snd]. rewrite in_map_iff. split.
  - intros ([[[c' ps] sh] l] & <- & Hf). apply H1 in Hf. destruct Hf as (A & B & C & _). cbn. rewrite C. repeat split; auto; discriminate.
  - intros (A & B & C). destruct (dget pbc c) as [ps|] eqn:Eps; [|now destruct C].
    exists (c, ps, SF_Model.fringe_shield (List.length names) idx pbc lateral c, lateral). split; [reflexivity|].
    apply H1. auto.
Qed.

Notation e_entries idx := (edge_entries dbu substrate overlaps sideoverlaps substrate_caps sidewalls cut fringe_cap shield_top names idx).
Lemma edge_ok idx c : (idx < List.length names)%nat ->
  Forall (interval_specified dbu substrate overlaps sideoverlaps substrate_caps sidewalls cut fringe_cap shield_top names idx (fst c))
    (filter counts (snd c)) ->
  exists e, e_entries idx c = Some e /\
    edge_part dbu substrate overlaps sideoverlaps substrate_caps sidewalls cut fringe_cap shield_top names idx c (rep e).
Proof.
  intros Hi HF. destruct c as [net nb]. cbn [fst snd] in *.
  assert (G : exists evs e, SF_Props.each_interval (SF_Model.on_interval (List.length names) idx shield_top) (filter counts nb) evs /\
      collect (fun x => ev_entries idx net (fst x) (snd x)) evs = Some e /\
      together (interval_part dbu substrate overlaps sideoverlaps substrate_caps sidewalls cut fringe_cap shield_top names idx net)
        (filter counts nb) (rep e)).
  { induction (filter counts nb) as [|[iv pbc] l IH].
    - exists [], []. split; [reflexivity|]. split; [reflexivity|]. exists []. split; constructor.
    - inversion HF as [|? ? Hx HF']; subst. destruct (IH HF') as (evs & e & A & B & ls & C & D).
      destruct (interval_ok idx net iv pbc Hi Hx) as (evs1 & e1 & A1 & B1 & C1).
      exists (map (pair iv) evs1 ++ evs)%list, (e1 ++ e)%list. split; [|split].
      + exists evs1, evs. auto.
      + rewrite collect_app, collect_pair. change (fun e0 => ev_entries idx net (fst (iv, e0)) (snd (iv, e0))) with (ev_entries idx net iv).
        rewrite B1, B. reflexivity.
      + exists (rep e1 :: ls). split; [now constructor|]. rewrite rep_app. now apply Permutation_app_head. }
  destruct G as (evs & e & A & B & C). exists e. split; [|exact C].
  unfold edge_entries. cbn [fst snd]. 
  rewrite (proj2 (SF_Props.C19_on_edge_per_interval (List.length names) idx shield_top nb evs) A). exact B.
Qed.
End Engine.

(** ** all layers *)
Section All.
Context {pt : Type}.
Notation regions := (dict string (list LV_Model.shape)).
Variables (area : OV_Model.region pt -> Qc) (dbu : Qc) (substrate : string).
Variables (overlaps sideoverlaps : dict string (dict string Qc)) (substrate_caps : list string).
Variable sidewalls : dict string (Qc * Qc).
Variable cut : SF_Model.spoly -> list SF_Model.spoly -> list SF_Model.spoly.
Variable fringe_cap : Z -> Z -> Z -> Qc -> Qc -> option Qc.
Variable shield_top : Z.
Variable polygon_calls : regions -> nat -> list (OV_Model.poly pt * dict nat (list (OV_Model.poly pt))).
Variable edge_calls : regions -> nat -> list (string * list ((Z * Z) * dict nat (list SF_Model.spoly))).
Notation ov_entries := (overlap_entries area dbu substrate overlaps polygon_calls).
Notation sw_entries := (sidewall_fringe_entries dbu substrate overlaps sideoverlaps substrate_caps sidewalls cut fringe_cap shield_top edge_calls).

Lemma entries_ok r : OV_Spec.measure area ->
  all_specified dbu substrate overlaps sideoverlaps substrate_caps sidewalls cut fringe_cap shield_top (dkeys r) (polygon_calls r) (edge_calls r) ->
  exists a b, ov_entries (dkeys r) r = Some a /\ sw_entries (dkeys r) r = Some b /\
    contributions area dbu substrate overlaps sideoverlaps substrate_caps sidewalls cut fringe_cap shield_top (dkeys r)
      (polygon_calls r) (edge_calls r) (rep (a ++ b)).
Proof.
  intros Hm Hs. assert (EL : List.length (dkeys r) = List.length r) by apply map_length.
  eexists. destruct (collect_together
     (fun idx => collect (edge_entries dbu substrate overlaps sideoverlaps substrate_caps sidewalls cut fringe_cap shield_top (dkeys r) idx) (edge_calls r idx))
     (fun idx => together (edge_part dbu substrate overlaps sideoverlaps substrate_caps sidewalls cut fringe_cap shield_top (dkeys r) idx) (edge_calls r idx))
     (seq 0 (List.length r))) as (b & Eb & Tb).
  { intros idx Hidx. apply in_seq in Hidx. apply collect_together. intros c Hc. apply edge_ok; [lia|].
    destruct (Hs idx) as [_ HF]; [lia|]. rewrite Forall_forall in HF. apply HF, Hc. }
  exists b. split; [reflexivity|]. split; [exact Eb|].
  rewrite rep_app. eexists _, _. split; [|split; [rewrite EL; exact Tb|reflexivity]].
  rewrite EL. apply flat_map_together. intros idx Hidx. apply in_seq in Hidx. apply flat_map_together. intros c Hc.
  apply polygon_ok; [exact Hm|]. destruct (Hs idx) as [HF _]; [lia|]. rewrite Forall_forall in HF. apply HF, Hc.
Qed.
End All.

(** ** the summary and the netlist *)
Definition op_of (e : LV_Model.entry) : add_op :=
  match e with LV_Model.EOverlap x => AddOverlap x | LV_Model.ESidewall x => AddSidewall x | LV_Model.ESideoverlap x => AddSideOverlap x end.
Lemma add_entries es : forall c, fold_left LV_Model.add_entry es c = fold_left add_step (map op_of es) c.
Proof. induction es as [|[x|x|x] es IH]; intros c; cbn [fold_left map]; [reflexivity|apply IH..]. Qed.

Lemma sums_perm reports l m : Permutation l m -> sums_of reports l -> sums_of reports m.
Proof.
  intros P (A & B & C). split; [|split].
  - assert (S : forall (e e' : couple * Qc), same_nets (fst (fst e)) (snd (fst e)) (fst (fst e')) (snd (fst e')) = false ->
              same_nets (fst (fst e')) (snd (fst e')) (fst (fst e)) (snd (fst e)) = false).
    { intros e e' H. apply Bool.not_true_iff_false. intros T. apply Bool.not_true_iff_false in H. apply H.
      apply same_nets_spec in T. apply same_nets_spec. destruct T as [[-> ->]|[-> ->]]; auto. }
    clear -A P S. induction P.
    + constructor.
    + inversion A; subst. constructor; [|auto]. rewrite Forall_forall in *. intros e He. apply H1. now apply (Permutation_in _ (Permutation_sym P)).
    + inversion A as [|? ? F1 A1]; subst. inversion A1 as [|? ? F2 A2]; subst. inversion F1 as [|? ? F3 F4]; subst.
      repeat constructor; auto.
    + auto.
  - intros a b v H. apply B. now apply (Permutation_in _ (Permutation_sym P)).
  - intros x y H. destruct (C x y H) as (a & b & v & J & S). exists a, b, v. split; [now apply (Permutation_in _ P)|exact S].
Qed.

Lemma normal_sums reports d : normal_table d ->
  (forall x y, mentioned reports x y -> pair_value d x y = Some (reported reports x y)) ->
  (forall x y, ~ mentioned reports x y -> pair_value d x y = None) -> sums_of reports d.
Proof.
  intros (Nd & Ord) H1 H2. split; [|split].
  - assert (G : forall l, NoDup (dkeys l) -> (forall a b, In (a, b) (dkeys l) -> strlt b a = false) ->
       ForallOrdPairs (fun e e' : couple * Qc => same_nets (fst (fst e)) (snd (fst e)) (fst (fst e')) (snd (fst e')) = false) l).
    { induction l as [|[[a b] v] l IH]; intros N O; [constructor|]. cbn in N. inversion N as [|? ? N1 N2]; subst. constructor.
      - rewrite Forall_forall. intros [[a' b'] v'] He. cbn [fst snd]. apply Bool.not_true_iff_false. intros S.
        rewrite <- normed_same in S. rewrite !normed_id in S.
        + injection S as -> ->. apply N1. apply in_map_iff. exists (a, b, v'). auto.
        + apply O. left. reflexivity.
        + apply O. right. apply in_map_iff. exists (a', b', v'). auto.
      - apply IH; [exact N2|]. intros x y J. apply O. now right. }
    apply G; assumption.
  - intros a b v J. assert (E : dget d (a, b) = Some v) by (apply In_dget; assumption).
    assert (PV : pair_value d a b = Some v) by (unfold pair_value; rewrite E; reflexivity).
    assert (M : mentioned reports a b).
    { apply mentioned_hits. destruct (hits reports a b) eqn:K; [reflexivity|]. rewrite H2 in PV; [discriminate|].
      rewrite mentioned_hits, K. discriminate. }
    split; [exact M|]. rewrite (H1 a b M) in PV. now injection PV.
  - intros x y M. specialize (H1 x y M). unfold pair_value in H1. destruct (dget d (x, y)) as [v|] eqn:E.
    + exists x, y, v. split; [apply (dget_In _ _ E)|]. apply same_nets_spec. auto.
    + apply dget_In in H1. exists y, x, (reported reports x y). split; [exact H1|]. apply same_nets_spec. auto.
Qed.
