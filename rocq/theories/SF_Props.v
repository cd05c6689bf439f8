(** C18-C21: sidewall and fringe capacitances
    (klayout_pex/rcx25/c/sidewall_and_fringe_extractor.py, polygon_utils.py). *)
From Coq Require Import String ZArith Permutation Lia Lqa.
From Verif Require Import PyBase QcLra PyLib ER_Model ER_Spec ER_Proofs ER_Props SF_Model SF_Spec SF_Proofs.
Local Open Scope Qc_scope.

(** the model's bounding box is the bounding box *)
Lemma bounding_box p : proper p -> is_lowest p (bbox_lo p) /\ is_highest p (bbox_hi p).
Proof. intros H. split; [now apply bbox_lo_lowest|now apply bbox_hi_highest]. Qed.

Lemma zq_lt a b : (a < b)%Z -> zq a < zq b.
Proof. intros H. unfold zq, Qclt, Q2Qc. cbn [this]. rewrite !Qred_correct, <- Zlt_Qlt. exact H. Qed.

Lemma qcinv_pos d : 0 < d -> 0 < / d.
Proof.
  intros H. apply Qclt_this in H. change (/ d) with (Q2Qc (/ this d)). unfold Qclt.
  setoid_rewrite this_Q2Qc at 2. now apply Qinv_lt_0_compat.
Qed.
Lemma half_over v n d : d <> 0 -> Q2Qc 2 * v = n / d / Q2Qc 1000 -> v = n / Q2Qc 2000 / d.
Proof.
  intros Hd H. assert (H2 : Q2Qc 2 <> 0) by qcneq. assert (H1 : Q2Qc 1000 <> 0) by qcneq.
  assert (H3 : Q2Qc 2000 <> 0) by qcneq.
  transitivity (Q2Qc 2 * v / Q2Qc 2); [field; exact H2|]. rewrite H.
  assert (E : Q2Qc 2000 = Q2Qc 1000 * Q2Qc 2) by qceq.
  rewrite E. field. auto.
Qed.

(** * C18 *)
(** Equal nets add nothing.  Otherwise one cap for the two nets, with half of
    length * C / (distance + offset) / 1000, for the distance of the lowest point. *)
Theorem C18_sidewall_value : forall dbu sidewalls layer net1 a b p r c offset y,
  dget sidewalls layer = Some (c, offset) ->
  is_lowest p y ->
  emit_sidewall dbu sidewalls layer net1 (a, b) p = Some r ->
  (net1 = sp_net p -> r = None) /\
  (net1 <> sp_net p ->
     zq y * dbu + offset <> 0 /\
     exists cap, r = Some cap /\ sw_key cap = (layer, net1, sp_net p) /\
       Q2Qc 2 * sw_value cap = (zq (b - a) * dbu) * c / (zq y * dbu + offset) / Q2Qc 1000).
Proof.
  intros dbu sidewalls layer net1 a b p r c offset y Hs Hy E. unfold emit_sidewall in E.
  destruct (eqb net1 (sp_net p)) eqn:En.
  { apply eqb_eq in En. injection E as <-. split; [auto|intros H; now destruct H]. }
  apply eqb_neq in En. split; [intros H; now destruct En|]. intros _.
  rewrite Hs in E. destruct (nearest_edge p); [|discriminate E].
  assert (Hp : proper p). { unfold proper. destruct Hy as [[x H] _]. intros H0. rewrite H0 in H. destruct H. }
  assert (Hl : Z.min (bbox_lo p) (bbox_hi p) = y).
  { rewrite (lowest_unique p y (bbox_lo p) Hy (bbox_lo_lowest p Hp)). apply Z.min_l, bbox_le. }
  rewrite Hl in E. cbn [fst snd] in E.
  destruct (qeqb (zq y * dbu + offset) 0) eqn:Eq; [discriminate E|]. apply qeqb_false in Eq.
  split; [exact Eq|]. injection E as <-. eexists. split; [reflexivity|]. cbn [sw_key sw_value]. split; [reflexivity|].
  field. split; [exact Eq|]. split; qcneq.
Qed.

(** The caps seen from both edges add up to the full sidewall capacitance in the summary. *)
Theorem C18_two_sides_make_the_cap : forall dbu sidewalls layer na nb len pa pb y c1 c2 c offset sm,
  na <> nb -> sp_net pb = nb -> sp_net pa = na ->
  dget sidewalls layer = Some (c, offset) ->
  is_lowest pa y -> is_lowest pb y ->
  emit_sidewall dbu sidewalls layer na len pb = Some (Some c1) ->
  emit_sidewall dbu sidewalls layer nb len pa = Some (Some c2) ->
  cell_summarize (add_caps [AddSidewall c1; AddSidewall c2]) = Some sm ->
  pair_value (capacitances sm) na nb
  = Some ((zq (snd len - fst len) * dbu) * c / (zq y * dbu + offset) / Q2Qc 1000).
Proof.
  intros dbu sidewalls layer na nb [a b] pa pb y c1 c2 c offset sm Hn Hb Ha Hs Ya Yb E1 E2 Es.
  destruct (C18_sidewall_value _ _ _ _ _ _ _ _ _ _ _ Hs Yb E1) as [_ H1].
  destruct (C18_sidewall_value _ _ _ _ _ _ _ _ _ _ _ Hs Ya E2) as [_ H2].
  rewrite Hb in H1. rewrite Ha in H2. specialize (H1 Hn). destruct (H2 (fun e => Hn (eq_sym e))) as (Hz & cap2 & [= <-] & K2 & V2).
  destruct H1 as (_ & cap1 & [= <-] & K1 & V1).
  destruct (C10_summary_conserves [AddSidewall c1; AddSidewall c2] [] sm Es) as (HS & _ & _).
  assert (R1 : report_of (AddSidewall c1) = (na, nb, sw_value c1)) by (cbn; now rewrite K1).
  assert (R2 : report_of (AddSidewall c2) = (nb, na, sw_value c2)) by (cbn; now rewrite K2).
  assert (S1 : same_nets na nb na nb = true) by (unfold same_nets; now rewrite !eqb_refl).
  assert (S2 : same_nets na nb nb na = true) by (unfold same_nets; rewrite !eqb_refl; apply Bool.orb_true_r).
  rewrite HS.
  - f_equal. cbn [map]. rewrite R1, R2. unfold reported. rewrite !qsumf_cons, qsumf_nil. cbv beta iota. rewrite S1, S2. cbn [fst snd].
    rewrite <- V1. cbn [snd fst] in *.
    assert (E : sw_value c1 = sw_value c2).
    { rewrite <- V2 in V1. assert (X : Q2Qc 2 * (sw_value c1 - sw_value c2) = 0) by (transitivity (Q2Qc 2 * sw_value c1 - Q2Qc 2 * sw_value c2); [ring|rewrite V1; ring]).
      apply Qcmult_integral in X. destruct X as [X|X]; [exfalso; revert X; qcneq|].
      rewrite <- (Qcplus_0_r (sw_value c2)), <- X. ring. }
    rewrite <- E. replace (Q2Qc 2) with (1 + 1) by qceq. ring.
  - exists na, nb, (sw_value c1). split; [|exact S1]. cbn [map]. rewrite R1. now left.
Qed.

(** It is positive, smaller for larger distances and proportional to the length. *)
Theorem C18_sidewall_positive_decreasing : forall dbu sidewalls layer net1 iv p q c offset y y' cp cq,
  dget sidewalls layer = Some (c, offset) ->
  0 < c -> 0 < dbu -> (fst iv < snd iv)%Z ->
  is_lowest p y -> is_lowest q y' -> (y < y')%Z -> 0 < zq y * dbu + offset ->
  emit_sidewall dbu sidewalls layer net1 iv p = Some (Some cp) ->
  emit_sidewall dbu sidewalls layer net1 iv q = Some (Some cq) ->
  0 < sw_value cq /\ sw_value cq < sw_value cp.
Proof.
  intros dbu sidewalls layer net1 [a b] p q c offset y y' cp cq Hs Hc Hd Hl Yp Yq Hlt Hpos Ep Eq.
  assert (Hnp : net1 <> sp_net p) by (intros H; destruct (C18_sidewall_value _ _ _ _ _ _ _ _ _ _ _ Hs Yp Ep) as [X _]; now specialize (X H)).
  assert (Hnq : net1 <> sp_net q) by (intros H; destruct (C18_sidewall_value _ _ _ _ _ _ _ _ _ _ _ Hs Yq Eq) as [X _]; now specialize (X H)).
  destruct (C18_sidewall_value _ _ _ _ _ _ _ _ _ _ _ Hs Yp Ep) as [_ X]. destruct (X Hnp) as (_ & ? & [= <-] & _ & Vp). clear X.
  destruct (C18_sidewall_value _ _ _ _ _ _ _ _ _ _ _ Hs Yq Eq) as [_ X]. destruct (X Hnq) as (_ & ? & [= <-] & _ & Vq). clear X.
  cbn [fst snd] in Hl.
  assert (HL : 0 < zq (b - a)).
  { change (zq 0 < zq (b - a)). apply zq_lt. lia. }
  assert (HY : zq y < zq y').
  { now apply zq_lt. }
  set (L := zq (b - a)) in *. set (D := zq y * dbu + offset) in *. set (D' := zq y' * dbu + offset) in *.
  assert (HD : D < D').
  { unfold D, D'. clear - HY Hd. assert (X : zq y * dbu < zq y' * dbu) by now apply Qcmult_lt_compat_r.
    qc_prep. Lqa.lra. }
  assert (HN : 0 < L * dbu * c).
  { assert (X : 0 < L * dbu) by (rewrite <- (Qcmult_0_l dbu); now apply Qcmult_lt_compat_r).
    rewrite <- (Qcmult_0_l c). now apply Qcmult_lt_compat_r. }
  set (N := L * dbu * c) in *.
  assert (HD' : 0 < D') by (exact (Qclt_trans _ _ _ Hpos HD)).
  assert (HD0 : D <> 0) by (intros Z; rewrite Z in Hpos; revert Hpos; apply Qcle_not_lt, Qcle_refl).
  assert (HD0' : D' <> 0) by (intros Z; rewrite Z in HD'; revert HD'; apply Qcle_not_lt, Qcle_refl).
  assert (P := half_over _ _ _ HD0 Vp). assert (P' := half_over _ _ _ HD0' Vq).
  assert (HM : 0 < N / Q2Qc 2000).
  { unfold Qcdiv. rewrite <- (Qcmult_0_l (/ Q2Qc 2000)). apply Qcmult_lt_compat_r; [apply qltb_true; vm_compute; reflexivity|exact HN]. }
  set (M := N / Q2Qc 2000) in *. rewrite P, P'.
  assert (ID : forall d, 0 < d -> 0 < / d).
  { intros d Hd0. now apply qcinv_pos. }
  split.
  - unfold Qcdiv. rewrite <- (Qcmult_0_l (/ D')). apply Qcmult_lt_compat_r; [now apply ID|exact HM].
  - replace (M / D') with ((M * D) * (/ D * / D')) by (field; auto).
    replace (M / D) with ((M * D') * (/ D * / D')) by (field; auto).
    apply Qcmult_lt_compat_r.
    + rewrite <- (Qcmult_0_l (/ D')). apply Qcmult_lt_compat_r; now apply ID.
    + rewrite (Qcmult_comm M D), (Qcmult_comm M D'). now apply Qcmult_lt_compat_r.
Qed.

(** a concrete pair of facing edges *)
Definition box (net : string) (x1 y1 x2 y2 : Z) : spoly := SPoly net [(x1, y1); (x1, y2); (x2, y2); (x2, y1)].
Definition sw_tab : dict string (Qc * Qc) := [("m1"%string, (Q2Qc 40, Q2Qc (1 # 4)))].
Definition sw_dbu : Qc := Q2Qc (1 # 1000).
Example C18_example :
  is_lowest (box "B" 0 250 4000 900) 250 /\ is_lowest (box "A" 0 250 4000 900) 250 /\
  (exists c1, emit_sidewall sw_dbu sw_tab "m1" "A" (0, 4000)%Z (box "B" 0 250 4000 900) = Some (Some c1)
     /\ qeqb (sw_value c1) (Q2Qc (16 # 100)) = true) /\
  (exists c2, emit_sidewall sw_dbu sw_tab "m1" "B" (0, 4000)%Z (box "A" 0 250 4000 900) = Some (Some c2)) /\
  (exists c3, emit_sidewall sw_dbu sw_tab "m1" "A" (0, 4000)%Z (box "C" 0 750 4000 900) = Some (Some c3)
     /\ qltb (sw_value c3) (Q2Qc (16 # 100)) = true).
Proof.
  split; [|split; [|split; [|split]]].
  - split; [exists 0%Z; now left|]. intros q [<-|[<-|[<-|[<-|[]]]]]; cbn; lia.
  - split; [exists 0%Z; now left|]. intros q [<-|[<-|[<-|[<-|[]]]]]; cbn; lia.
  - eexists. split; [reflexivity|]. vm_compute. reflexivity.
  - eexists. reflexivity.
  - eexists. split; [reflexivity|]. vm_compute. reflexivity.
Qed.

(** * C19 *)
(** The fringe calls of an interval are one per layer with polygons other than the inside
    layer; each gets as shield exactly the polygons of the layers strictly between and the
    lateral shield. *)
Theorem C19_fringe_shield_layers : forall n inside shield_top pbc evs,
  (inside < n)%nat -> proper_nb pbc ->
  on_interval n inside shield_top pbc = Some evs ->
  exists lateral,
    NoDup (map (fun f => fst (fst (fst f))) (fringes evs)) /\
    (forall c ps, ((c < n)%nat /\ c <> inside /\ dget pbc c = Some ps)
                  <-> exists sh l, In (c, ps, sh, l) (fringes evs)) /\
    (forall c ps sh l, In (c, ps, sh, l) (fringes evs) ->
       l = lateral /\
       forall s, In s sh <-> lateral = Some s
                 \/ exists j ps', between c inside j /\ dget pbc j = Some ps' /\ In s ps').
Proof.
  intros n inside top pbc evs Hin Hp E.
  destruct (interval_main n inside top Hin pbc evs Hp E) as (lateral & H1 & H2 & _).
  exists lateral. split; [exact H2|]. split.
  - intros c ps. split.
    + intros (A & B & C). do 2 eexists. apply H1. repeat split; eauto.
    + intros (sh & l & H). apply H1 in H. tauto.
  - intros c ps sh l H. apply H1 in H. destruct H as (A & B & C & -> & ->). split; [reflexivity|].
    intros s. now apply shield_in.
Qed.

(** The calls for an edge are those of its intervals longer than 1 dbu with any polygons. *)
Fixpoint each_interval (f : dict nat (list spoly) -> option (list event))
    (nb : list ((Z * Z) * dict nat (list spoly))) (evs : list ((Z * Z) * event)) : Prop :=
  match nb with
  | [] => evs = []
  | (iv, pbc) :: t => exists e r, f pbc = Some e /\ each_interval f t r /\ evs = (map (pair iv) e ++ r)%list
  end.
Theorem C19_on_edge_per_interval : forall n inside shield_top nb evs,
  on_edge n inside shield_top nb = Some evs <->
  each_interval (on_interval n inside shield_top)
    (filter (fun e => negb (match snd e with [] => true | _ => false end) && (1 <? snd (fst e) - fst (fst e))%Z) nb) evs.
Proof.
  intros n inside top nb. induction nb as [|[[a b] pbc] nb IH]; intros evs.
  - cbn. split; [intros [= <-]; reflexivity|intros ->; reflexivity].
  - cbn [on_edge filter fst snd]. destruct pbc as [|e0 pbc]; cbn [negb andb]; [apply IH|].
    destruct (Z.leb_spec (b - a) 1) as [Hle|Hgt].
    + destruct (Z.ltb_spec 1 (b - a)); [lia|]. apply IH.
    + destruct (Z.ltb_spec 1 (b - a)); [|lia]. cbn [each_interval].
      destruct (on_interval n inside top (e0 :: pbc)) as [e|].
      * destruct (on_edge n inside top nb) as [r|].
        -- split.
           ++ intros [= <-]. exists e, r. split; [reflexivity|]. split; [now apply IH|reflexivity].
           ++ intros (e' & r' & [= <-] & Hr & ->). apply IH in Hr. injection Hr as <-. reflexivity.
        -- split; [discriminate|]. intros (e' & r' & _ & Hr & _). apply IH in Hr. discriminate.
      * split; [discriminate|]. intros (e' & r' & He & _). discriminate.
Qed.

(** * C20 *)
Theorem C20_nearest_polygon : forall ps, Forall proper ps ->
  (ps = [] -> find_nearest ps = None) /\
  (ps <> [] -> exists d p, find_nearest ps = Some (Some d, p) /\ first_nearest ps d p).
Proof.
  intros ps Hp. split; [intros ->; reflexivity|]. intros Hne.
  destruct (find_nearest_ok ps Hne) as (d & p & E & H). exists d, p. split; [exact E|]. now apply nearest_of_first.
Qed.
(** On an edge interval only the nearest same-layer polygon gets a sidewall, and the
    lateral shield starts at the edge of a nearest polygon among same-layer and
    same-polygon neighbours. *)
Theorem C20_sidewall_and_lateral_shield : forall n inside shield_top pbc evs,
  (inside < n)%nat -> proper_nb pbc ->
  on_interval n inside shield_top pbc = Some evs ->
  match dget pbc inside with
  | Some ps => exists p d, sidewalls_of evs = [p] /\ first_nearest ps d p
  | None => sidewalls_of evs = []
  end /\
  forall c ps sh lateral, In (c, ps, sh, lateral) (fringes evs) ->
    match lateral with
    | None => forall p, ~ laterals n inside pbc p
    | Some l => exists p d x1 y1 x2 y2, laterals n inside pbc p /\ distance p d
        /\ (forall q d', laterals n inside pbc q -> distance q d' -> (d <= d')%Z)
        /\ nearest_edge p = Some ((x1, y1), (x2, y2))
        /\ sp_hull l = [(x2, y2); (x1, y1); (x1, shield_top); (x2, shield_top)]
    end.
Proof.
  intros n inside top pbc evs Hin Hp E.
  destruct (interval_main n inside top Hin pbc evs Hp E) as (lateral & H1 & _ & H3 & H4 & H5).
  split; [exact H3|]. intros c ps sh l H. apply H1 in H. destruct H as (_ & _ & _ & _ & ->).
  destruct lateral as [l|]; [|auto].
  destruct (H5 l eq_refl) as (p & [[x1 y1] [x2 y2]] & d & A & B & C & D & ->).
  exists p, d, x1, y1, x2, y2. auto 10.
Qed.
(** nothing is raised when lateral neighbour lists are non-empty and their polygons have an
    edge running from right to left *)
Theorem C20_no_exception : forall n inside shield_top pbc,
  (forall k ps, In (k, ps) pbc -> k = inside \/ k = n -> ps <> [] /\ Forall (fun p => nearest_edge p <> None) ps) ->
  exists evs, on_interval n inside shield_top pbc = Some evs.
Proof.
  intros n inside top pbc H. unfold on_interval.
  destruct (lateral_runs n inside pbc (Lat None None [])) as [s ->]; [|eauto].
  intros k ps Hi Hk. apply (H k ps Hi). unfold is_lat in Hk. apply Bool.orb_true_iff in Hk.
  destruct Hk as [Hk|Hk]; apply Nat.eqb_eq in Hk; auto.
Qed.

Definition ex_pbc : dict nat (list spoly) :=
  [(4%nat, [box "A" 0 900 10 990]); (0%nat, [box "S" 0 (-5) 10 2000]); (1%nat, [box "P" 0 100 10 300]);
   (2%nat, [box "B" 0 500 10 600; box "C" 0 200 10 300; box "D" 0 200 10 250]); (3%nat, [box "E" 0 50 10 70])].
Definition ex_evs : list event :=
  [EvSidewall (box "C" 0 200 10 300);
   EvFringe 0 [box "S" 0 (-5) 10 2000] [SPoly "" [(0, 200); (10, 200); (10, 3000); (0, 3000)]; box "P" 0 100 10 300]%Z
     (Some (SPoly "" [(0, 200); (10, 200); (10, 3000); (0, 3000)]%Z));
   EvFringe 1 [box "P" 0 100 10 300] [SPoly "" [(0, 200); (10, 200); (10, 3000); (0, 3000)]%Z]
     (Some (SPoly "" [(0, 200); (10, 200); (10, 3000); (0, 3000)]%Z));
   EvFringe 3 [box "E" 0 50 10 70] [SPoly "" [(0, 200); (10, 200); (10, 3000); (0, 3000)]%Z]
     (Some (SPoly "" [(0, 200); (10, 200); (10, 3000); (0, 3000)]%Z))].
Example C19_C20_example : proper_nb ex_pbc /\ on_interval 4 2 3000 ex_pbc = Some ex_evs.
Proof.
  split; [|vm_compute; reflexivity]. split.
  - unfold dwf. cbn. repeat constructor; cbn; lia.
  - intros k ps H. apply dget_In in H. cbn in H.
    repeat (destruct H as [H|H]; [injection H as <- <-; repeat constructor; discriminate|]). destruct H.
Qed.

(** * C21 *)
Lemma fringe_specs_found overlaps sideoverlaps substrate_caps ins out oc sc :
  fringe_specs overlaps sideoverlaps substrate_caps ins out = Some (oc, sc) <->
  fringe_specified overlaps sideoverlaps substrate_caps ins out oc sc.
Proof.
  unfold fringe_specs, fringe_specified. split.
  - destruct (dget overlaps ins) as [t|]; [|discriminate].
    destruct (match dget t out with Some c => Some c | None => _ end) as [c|] eqn:Ec; [|discriminate].
    destruct (existsb (eqb ins) substrate_caps) eqn:Es; [|discriminate].
    destruct (dget sideoverlaps ins) as [t2|] eqn:E2; [|discriminate].
    destruct (dget t2 out) as [c2|] eqn:E3; [|discriminate]. intros [= <- <-]. split; [|split].
    + exists t. split; [reflexivity|]. destruct (dget t out) as [c'|]; [left; exact Ec|right; split; [reflexivity|]].
      destruct (dget overlaps out) as [t'|]; [|discriminate]. exists t'. auto.
    + apply existsb_exists in Es. destruct Es as (x & Hx & Ex). apply eqb_eq in Ex. now subst.
    + exists t2. auto.
  - intros ((t & -> & H) & Hs & (t2 & -> & ->)).
    assert (Es : existsb (eqb ins) substrate_caps = true) by (apply existsb_exists; exists ins; split; [exact Hs|apply eqb_refl]).
    rewrite Es. destruct H as [->|(-> & t' & -> & ->)]; reflexivity.
Qed.

(** What holds: the pieces are visited in some order, and exactly those before the first
    thin one contribute. *)
Theorem C21_fringe_until_thin_piece_partial :
  forall substrate overlaps sideoverlaps substrate_caps cut fringe_cap ins edge_net out a b polys shield oc sc,
  let ins_net := if eqb ins substrate then substrate else edge_net in
  fringe_specified overlaps sideoverlaps substrate_caps ins out oc sc ->
  (forall e, In e (pieces cut substrate ins_net out shield polys) -> thin e = false ->
     fringe_cap (b - a)%Z (near (snd e)) (far (snd e)) oc sc <> None) ->
  exists order, Permutation order (pieces cut substrate ins_net out shield polys) /\
    emit_fringe substrate overlaps sideoverlaps substrate_caps cut fringe_cap ins edge_net out (a, b) polys shield
    = Some (flat_map (cap_of fringe_cap ins ins_net out (b - a)%Z oc sc) (until_thin order)).
Proof.
  intros substrate overlaps sideoverlaps substrate_caps cut fringe_cap ins edge_net out a b polys shield oc sc ins_net Hs Hd.
  unfold emit_fringe. apply fringe_specs_found in Hs. rewrite Hs. fold (net_of substrate ins edge_net) in ins_net.
  change (net_of substrate ins edge_net) with ins_net. cbn [fst snd]. rewrite emit_flat.
  set (order := flatten (fold_left (group_step substrate cut ins_net out shield) polys [])).
  assert (HP : Permutation order (pieces cut substrate ins_net out shield polys)).
  { unfold order. rewrite group_perm. reflexivity. }
  exists order. split; [exact HP|].
  destruct (pieces_fold fringe_cap ins ins_net out (b - a) oc sc order []) as [r ->]; [|reflexivity].
  intros e He. apply Hd. now apply (Permutation_in _ HP).
Qed.

(** Without thin pieces every unshielded piece of another net contributes its cap. *)
Theorem C21_fringe_every_piece :
  forall substrate overlaps sideoverlaps substrate_caps cut fringe_cap ins edge_net out a b polys shield oc sc,
  let ins_net := if eqb ins substrate then substrate else edge_net in
  fringe_specified overlaps sideoverlaps substrate_caps ins out oc sc ->
  (forall e, In e (pieces cut substrate ins_net out shield polys) ->
     (near (snd e) < far (snd e))%Z /\ fringe_cap (b - a)%Z (near (snd e)) (far (snd e)) oc sc <> None) ->
  exists caps,
    emit_fringe substrate overlaps sideoverlaps substrate_caps cut fringe_cap ins edge_net out (a, b) polys shield = Some caps /\
    Permutation caps (flat_map (cap_of fringe_cap ins ins_net out (b - a)%Z oc sc) (pieces cut substrate ins_net out shield polys)).
Proof.
  intros substrate overlaps sideoverlaps substrate_caps cut fringe_cap ins edge_net out a b polys shield oc sc ins_net Hs Hd.
  destruct (C21_fringe_until_thin_piece_partial substrate overlaps sideoverlaps substrate_caps cut fringe_cap ins edge_net out a b polys shield oc sc Hs)
    as (order & HP & E).
  { intros e He _. now apply Hd. }
  eexists. split; [exact E|]. rewrite until_thin_all.
  - now apply Permutation_flat_map.
  - intros e He. apply (Permutation_in _ HP) in He. apply Hd in He. unfold thin. apply Z.eqb_neq. lia.
Qed.

(** C21 without that restriction is false: a piece lying entirely below the edge (far =
    near = 0) hides a later one of positive capacitance. *)
Definition ov_tab : dict string (dict string Qc) := [("m2", [("m1", Q2Qc 10)]); ("m1", [("VSUBS", Q2Qc 10)])]%string.
Definition so_tab : dict string (dict string Qc) := [("m1", [("m2", Q2Qc 10)])]%string.
Definition flat_fringe (len near far : Z) (oc sc : Qc) : option Qc := Some (zq (far - near) * zq len).
Theorem C21_every_piece_contributes_refuted :
  exists substrate overlaps sideoverlaps substrate_caps cut fringe_cap ins edge_net out a b polys shield oc sc,
  let ins_net := if eqb ins substrate then substrate else edge_net in
  fringe_specified overlaps sideoverlaps substrate_caps ins out oc sc /\
  exists e, In e (pieces cut substrate ins_net out shield polys) /\
    cap_of fringe_cap ins ins_net out (b - a)%Z oc sc e <> [] /\
    emit_fringe substrate overlaps sideoverlaps substrate_caps cut fringe_cap ins edge_net out (a, b) polys shield = Some [].
Proof.
  exists "VSUBS"%string, ov_tab, so_tab, ["m1"%string], (fun _ _ => []), flat_fringe,
    "m1"%string, "A"%string, "m2"%string, 0%Z, 100%Z, [box "B" 0 (-20) 100 0; box "C" 0 10 100 50], [], (Q2Qc 10), (Q2Qc 10).
  cbv zeta. split.
  - split; [|split].
    + exists [("VSUBS"%string, Q2Qc 10)]. split; [reflexivity|]. right. split; [reflexivity|].
      exists [("m1"%string, Q2Qc 10)]. split; reflexivity.
    + now left.
    + exists [("m2"%string, Q2Qc 10)]. split; reflexivity.
  - exists ("C"%string, sp_hull (box "C" 0 10 100 50)). split; [right; now left|]. split; [|reflexivity].
    unfold cap_of, flat_fringe. 
    match goal with |- (if ?b then _ else _) <> [] => replace b with true by (vm_compute; reflexivity) end. discriminate.
Qed.
Example C21_example :
  exists caps, emit_fringe "VSUBS" ov_tab so_tab ["m1"%string] (fun _ _ => []) flat_fringe "m1" "A" "m2" (0, 100)%Z
    [box "B" 0 0 100 20; box "A" 0 0 100 5; box "C" 0 10 100 50; box "B" 0 30 100 50] [] = Some caps /\
  map so_key caps = [("m1", "A", "m2", "B"); ("m1", "A", "m2", "B"); ("m1", "A", "m2", "C")]%string.
Proof. eexists. split; reflexivity. Qed.

Print Assumptions C18_sidewall_value.
Print Assumptions C18_two_sides_make_the_cap.
Print Assumptions C18_sidewall_positive_decreasing.
Print Assumptions C19_fringe_shield_layers.
Print Assumptions C19_on_edge_per_interval.
Print Assumptions C20_nearest_polygon.
Print Assumptions C20_sidewall_and_lateral_shield.
Print Assumptions C20_no_exception.
Print Assumptions C21_fringe_until_thin_piece_partial.
Print Assumptions C21_fringe_every_piece.
Print Assumptions C21_every_piece_contributes_refuted.
