(** Theorems about the sidewall capacitances of the shipped PDKs, for every pair of edges. *)
From Coq Require Import String ZArith Lia Lqa.
From Verif Require Import PyBase PyLib QcLra SW_Model TI_Model ER_Model SF_Model SF_Spec SF_Proofs SF_Props PD_Sky130A PD_Ihp PD_Spec.
From Verif Require PD_Model.
Local Open Scope string_scope.
Local Open Scope list_scope.
Notation caps T := (PD_Model.sidewalls_of T).

(** every coefficient is positive, and no offset is more negative than the margin *)
Definition caps_above (margin : Qc) (T : PD_Model.technology) : bool := forallb (fun e => qltb 0 (fst (snd e)) && qleb 0 (margin + snd (snd e))%Qc) (caps T).
Lemma sky_caps : caps_above 0%Qc sky130A = true. Proof. vm_compute. reflexivity. Qed.
Lemma ihp_caps : caps_above (Q2Qc (57 # 1000)) ihp = true. Proof. vm_compute. reflexivity. Qed.
Lemma qcmul_pos a b : (0 < a)%Qc -> (0 < b)%Qc -> (0 < a * b)%Qc.
Proof. intros A B. rewrite <- (Qcmult_0_l b). apply Qcmult_lt_compat_r; assumption. Qed.
Lemma zq_pos z : (0 < z)%Z -> (0 < zq z)%Qc.
Proof. intros P. unfold zq. qc_prep. unfold Qlt. simpl. lia. Qed.
Lemma emit_eq dbu side layer net1 a b p y c off : dget side layer = Some (c, off) -> is_lowest p y -> nearest_edge p <> None -> net1 <> sp_net p ->
  emit_sidewall dbu side layer net1 (a, b) p =
  if qeqb (zq y * dbu + off) 0 then None
  else Some (Some (SidewallCap (layer, net1, sp_net p) ((zq (b - a) * dbu * c) / (zq y * dbu + off) / Q2Qc 2 / Q2Qc 1000) (zq y * dbu) (zq (b - a) * dbu))).
Proof.
  intros G Lo Ne Nn. unfold emit_sidewall. rewrite (proj2 (eqb_false _ _) Nn), G. destruct (nearest_edge p); [|congruence].
  assert (Hp : proper p). { unfold proper. destruct Lo as [[x H] _]. intros H0. rewrite H0 in H. destruct H. }
  assert (Hl : Z.min (bbox_lo p) (bbox_hi p) = y). { rewrite (lowest_unique p y (bbox_lo p) Lo (bbox_lo_lowest p Hp)). apply Z.min_l, bbox_le. }
  rewrite Hl. reflexivity.
Qed.
Lemma sidewall_positive margin T dbu layer net1 a b p y : caps_above margin T = true -> (0 < dbu)%Qc -> (a < b)%Z -> In layer (dkeys (caps T)) ->
  is_lowest p y -> nearest_edge p <> None -> net1 <> sp_net p -> (margin < zq y * dbu)%Qc ->
  exists cap, emit_sidewall dbu (caps T) layer net1 (a, b) p = Some (Some cap) /\ (0 < sw_value cap)%Qc.
Proof.
  intros K Db L I Lo Ne Nn M. destruct (dget (caps T) layer) as [[c off]|] eqn:G; [|apply dget_None in G; contradiction].
  unfold caps_above in K. rewrite forallb_forall in K. specialize (K _ (dget_In _ _ G)). simpl in K. apply andb_prop in K. destruct K as [K1 K2]. apply qltb_true in K1. apply qleb_true in K2.
  assert (Ps : (0 < zq y * dbu + off)%Qc) by qclra.
  rewrite (emit_eq _ _ _ _ _ _ _ _ _ _ G Lo Ne Nn). destruct (qeqb (zq y * dbu + off) 0) eqn:E; [apply qeqb_true in E; rewrite E in Ps; exfalso; revert Ps; apply Qclt_not_eq || discriminate|].
  eexists. split; [reflexivity|]. simpl. unfold Qcdiv. repeat apply qcmul_pos; try apply qcinv_pos; auto; try (apply qltb_true; vm_compute; reflexivity). apply zq_pos. lia.
Qed.

(** C76: in sky130A the sidewall capacitance of facing edges is positive at every distance *)
Theorem C76_sky130A : forall dbu layer net1 a b p y, (0 < dbu)%Qc -> (a < b)%Z -> In layer (dkeys (caps sky130A)) ->
  is_lowest p y -> nearest_edge p <> None -> net1 <> sp_net p -> (0 < y)%Z ->
  exists cap, emit_sidewall dbu (caps sky130A) layer net1 (a, b) p = Some (Some cap) /\ (0 < sw_value cap)%Qc.
Proof.
  intros dbu layer net1 a b p y Db L I Lo Ne Nn P. eapply sidewall_positive; eauto using sky_caps. apply qcmul_pos; [apply zq_pos, P|exact Db].
Qed.
(** in IHP it is positive at every distance above 57 nm *)
Theorem C76_ihp_partial : forall dbu layer net1 a b p y, (0 < dbu)%Qc -> (a < b)%Z -> In layer (dkeys (caps ihp)) ->
  is_lowest p y -> nearest_edge p <> None -> net1 <> sp_net p -> (Q2Qc (57 # 1000) < zq y * dbu)%Qc ->
  exists cap, emit_sidewall dbu (caps ihp) layer net1 (a, b) p = Some (Some cap) /\ (0 < sw_value cap)%Qc.
Proof. intros dbu layer net1 a b p y Db L I Lo Ne Nn P. eapply sidewall_positive; eauto using ihp_caps. Qed.
(** between Metal1 edges it is negative below 57 nm, and at 57 nm the extraction fails *)
Lemma ihp_metal1 : match dget (caps ihp) "Metal1" with Some (c, off) => qltb 0 c && qeqb off (Q2Qc (-57 # 1000)) | None => false end = true.
Proof. vm_compute. reflexivity. Qed.
Theorem C76_ihp_refuted : forall dbu net1 a b p y, (0 < dbu)%Qc -> (a < b)%Z ->
  is_lowest p y -> nearest_edge p <> None -> net1 <> sp_net p ->
  ((zq y * dbu < Q2Qc (57 # 1000))%Qc -> exists cap, emit_sidewall dbu (caps ihp) "Metal1" net1 (a, b) p = Some (Some cap) /\ (sw_value cap < 0)%Qc) /\
  ((zq y * dbu = Q2Qc (57 # 1000))%Qc -> emit_sidewall dbu (caps ihp) "Metal1" net1 (a, b) p = None).
Proof.
  intros dbu net1 a b p y Db L Lo Ne Nn. pose proof ihp_metal1 as K. destruct (dget (caps ihp) "Metal1") as [[c off]|] eqn:G; [|discriminate].
  apply andb_prop in K. destruct K as [K1 K2]. apply qltb_true in K1. apply qeqb_true in K2. rewrite (emit_eq _ _ _ _ _ _ _ _ _ _ G Lo Ne Nn). split.
  - intros M. assert (Ng : (zq y * dbu + off < 0)%Qc) by (rewrite K2; qclra).
    destruct (qeqb (zq y * dbu + off) 0) eqn:E; [apply qeqb_true in E; rewrite E in Ng; discriminate|]. apply qeqb_false in E.
    eexists. split; [reflexivity|]. simpl.
    assert (Pn : (0 < zq (b - a) * dbu * c)%Qc) by (repeat apply qcmul_pos; auto; apply zq_pos; lia).
    assert (Iv : (/ (zq y * dbu + off) < 0)%Qc).
    { assert (X : (0 < / - (zq y * dbu + off))%Qc) by (apply qcinv_pos; qclra).
      replace (/ (zq y * dbu + off))%Qc with (- / - (zq y * dbu + off))%Qc; [qclra|]. field. split; [exact E|]. intros Z. apply E. replace (zq y * dbu + off)%Qc with (- - (zq y * dbu + off))%Qc by ring. rewrite Z. reflexivity. }
    assert (W : (0 < (zq (b - a) * dbu * c) * (- / (zq y * dbu + off)) * / Q2Qc 2 * / Q2Qc 1000)%Qc).
    { assert (I2 : (0 < / Q2Qc 2)%Qc) by (apply qcinv_pos, qltb_true; vm_compute; reflexivity).
      assert (I3 : (0 < / Q2Qc 1000)%Qc) by (apply qcinv_pos, qltb_true; vm_compute; reflexivity).
      assert (Im : (0 < - / (zq y * dbu + off))%Qc) by qclra.
      exact (qcmul_pos _ _ (qcmul_pos _ _ (qcmul_pos _ _ Pn Im) I2) I3). }
    unfold Qcdiv. replace (zq (b - a) * dbu * c * - / (zq y * dbu + off) * / Q2Qc 2 * / Q2Qc 1000)%Qc with (- (zq (b - a) * dbu * c * / (zq y * dbu + off) * / Q2Qc 2 * / Q2Qc 1000))%Qc in W by ring.
    qclra.
  - intros M. destruct (qeqb (zq y * dbu + off) 0) eqn:E; [reflexivity|]. apply qeqb_false in E. exfalso. apply E. rewrite M, K2. qceq.
Qed.
(** a box 30 nm away, one 57 nm away and one 200 nm away *)
Example C76_case :
  is_lowest (box "B" 0 30 4000 900) 30 /\ nearest_edge (box "B" 0 30 4000 900) <> None /\
  match emit_sidewall sw_dbu (caps ihp) "Metal1" "A" (0, 4000)%Z (box "B" 0 30 4000 900) with Some (Some c) => qltb (sw_value c) 0 | _ => false end = true /\
  match emit_sidewall sw_dbu (caps ihp) "Metal1" "A" (0, 4000)%Z (box "B" 0 57 4000 900) with None => true | _ => false end = true /\
  match emit_sidewall sw_dbu (caps ihp) "Metal1" "A" (0, 4000)%Z (box "B" 0 200 4000 900) with Some (Some c) => qltb 0 (sw_value c) | _ => false end = true /\
  match emit_sidewall sw_dbu (caps sky130A) "met1" "A" (0, 4000)%Z (box "B" 0 1 4000 900) with Some (Some c) => qltb 0 (sw_value c) | _ => false end = true.
Proof.
  split; [split; [exists 0%Z; now left|]; intros q [<-|[<-|[<-|[<-|[]]]]]; cbn; lia|]. split; [vm_compute; discriminate|]. repeat split; vm_compute; reflexivity.
Qed.

Print Assumptions C76_sky130A.
Print Assumptions C76_ihp_partial.
Print Assumptions C76_ihp_refuted.
