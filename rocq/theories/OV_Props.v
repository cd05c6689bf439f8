(** C15, C16: overlap capacitances (klayout_pex/rcx25/c/overlap_extractor.py). *)
From Coq Require Import String Sorted Lia.
From Verif Require Import PyBase QcLra PyLib ER_Model OV_Model OV_Spec OV_Proofs.
Local Open Scope Qc_scope.

(** C15: if every needed specification exists, the reports are exactly those of the
    candidates with a positive capacitance, each for exactly the points of the bottom
    polygon which it covers first. *)
Theorem C15_overlap_first_cover :
  forall (pt : Type) (area : region pt -> Qc) dbu substrate specs layer_names inside polygon nb,
  measure area ->
  let bot := nth inside layer_names EmptyString in
  let net := bottom_net substrate bot polygon in
  let cands := candidates (List.length layer_names) inside nb net in
  (forall k p, In (k, p) cands -> exists c, specified specs (nth k layer_names EmptyString) bot c) ->
  reports_first area dbu specs layer_names bot net (p_points polygon) cands (List.length cands)
    (neighbors area dbu substrate specs layer_names inside polygon nb).
Proof.
  intros pt area dbu substrate specs layer_names inside polygon nb Hm bot net cands Hs.
  rewrite <- (@lead_all pt specs layer_names bot cands).
  - now apply neighbors_main.
  - intros [k p] He. cbn [fst]. eauto.
Qed.

(** C15: with or without missing specifications, the credited areas are pairwise disjoint
    parts of the bottom polygon and of the polygon credited, and do not add up to more
    than the bottom polygon. *)
Theorem C15_overlap_areas_disjoint :
  forall (pt : Type) (area : region pt -> Qc) dbu substrate specs layer_names inside polygon nb,
  measure area ->
  let out := neighbors area dbu substrate specs layer_names inside polygon nb in
  ForallOrdPairs disjoint (map em_area out)
  /\ (forall e, In e out -> subset (em_area e) (p_points polygon) /\ subset (em_area e) (p_points (em_top e)))
  /\ rsum (map area (map em_area out)) <= area (p_points polygon).
Proof.
  intros pt area dbu substrate specs layer_names inside polygon nb Hm out.
  eapply reports_disjoint; [exact Hm|]. apply (neighbors_main Hm).
Qed.

(** C16, what holds: there is a number [n] such that the first [n] candidates all have a
    specification, candidate [n] (if there is one) has none, and the reports are exactly
    those of the first [n] candidates. *)
Theorem C16_overlap_until_missing_spec_partial :
  forall (pt : Type) (area : region pt -> Qc) dbu substrate specs layer_names inside polygon nb,
  measure area ->
  let bot := nth inside layer_names EmptyString in
  let net := bottom_net substrate bot polygon in
  let cands := candidates (List.length layer_names) inside nb net in
  exists n,
    (forall i k p, (i < n)%nat -> nth_error cands i = Some (k, p) ->
        exists c, specified specs (nth k layer_names EmptyString) bot c)
    /\ (forall k p c, nth_error cands n = Some (k, p) -> ~ specified specs (nth k layer_names EmptyString) bot c)
    /\ reports_first area dbu specs layer_names bot net (p_points polygon) cands n
         (neighbors area dbu substrate specs layer_names inside polygon nb).
Proof.
  intros pt area dbu substrate specs layer_names inside polygon nb Hm bot net cands.
  exists (lead specs layer_names bot cands). split; [|split].
  - intros i k p Hi E. exact (lead_spec specs layer_names bot cands Hi E).
  - intros k p c E. apply (lead_stop _ _ E).
  - now apply neighbors_main.
Qed.

(** * Concrete cases.  Points are the numbers 0..9, the area is their count. *)
Fixpoint count (u : list nat) (a : region nat) : Qc :=
  match u with [] => 0 | x :: t => (if a x then 1 else 0) + count t a end.
Lemma count_measure u : measure (count u).
Proof.
  split.
  - intros a b H. induction u as [|x u IH]; cbn; [reflexivity|]. now rewrite H, IH.
  - intros a. induction u as [|x u IH]; cbn; [apply Qcle_refl|]. destruct (a x).
    + qc_prep. Lqa.lra.
    + now rewrite Qcplus_0_l.
  - induction u as [|x u IH]; cbn; [reflexivity|]. rewrite IH. qceq.
  - intros a b H. induction u as [|x u IH]; cbn; [qceq|]. rewrite IH. specialize (H x).
    destruct (a x), (b x); try discriminate H; cbn; ring.
Qed.
Definition ov_area := count (seq 0 10).
Definition upto (n : nat) : region nat := fun x => Nat.ltb x n.
Definition ex_layers : list string := ["sub"; "poly"; "met1"; "met2"]%string.
Definition ex_specs : dict string (dict string Qc) :=
  [("met1", [("poly", Q2Qc 2)]); ("met2", [("poly", Q2Qc 3); ("met1", Q2Qc 5)])]%string.
Definition ex_bottom := Poly "A"%string (upto 8).
Definition ex_nb : dict nat (list (poly nat)) :=
  [(3%nat, [Poly "C"%string (upto 6)]); (2%nat, [Poly "A"%string (upto 8); Poly "B"%string (upto 4)])].
Definition ex_out := neighbors ov_area 1 "sub"%string ex_specs ex_layers 1 ex_bottom ex_nb.

(** the hypotheses of C15 hold for it and two caps result: 4*2/1000 and (6-4)*3/1000 *)
Example C15_example :
  (forall k p, In (k, p) (candidates (List.length ex_layers) 1 ex_nb "A"%string) ->
     exists c, specified ex_specs (nth k ex_layers EmptyString) "poly" c)
  /\ map (fun e => ov_key (em_cap e)) ex_out
     = [("met1", "B", "poly", "A"); ("met2", "C", "poly", "A")]%string
  /\ map (fun p => qeqb (ov_value (em_cap (fst p))) (snd p)) (combine ex_out [Q2Qc (8 # 1000); Q2Qc (6 # 1000)])
     = [true; true].
Proof.
  split; [|split; vm_compute; reflexivity].
  intros k p H. cbn in H. destruct H as [E|[E|[]]]; injection E as <- _.
  - exists (Q2Qc 2), [("poly", Q2Qc 2)]%string. split; reflexivity.
  - exists (Q2Qc 3), [("poly", Q2Qc 3); ("met1", Q2Qc 5)]%string. split; reflexivity.
Qed.

(** C16 as stated is false: without a specification for met1, the met2 polygon, for which
    there is one and which has a positive capacitance, is not reported. *)
Definition ex_specs2 : dict string (dict string Qc) := [("met2", [("poly", Q2Qc 3)])]%string.
Theorem C16_missing_spec_only_affects_its_pair_refuted :
  exists (area : region nat -> Qc) dbu substrate specs layer_names inside polygon nb,
  measure area /\
  let bot := nth inside layer_names EmptyString in
  let net := bottom_net substrate bot polygon in
  let cands := candidates (List.length layer_names) inside nb net in
  exists i v, worth area dbu specs layer_names bot (p_points polygon) cands i v /\ 0 < v
    /\ forall e, In e (neighbors area dbu substrate specs layer_names inside polygon nb) ->
         ~ report_for area dbu specs layer_names bot net (p_points polygon) cands i e.
Proof.
  exists ov_area, 1, "sub"%string, ex_specs2, ex_layers, 1%nat, ex_bottom, ex_nb.
  split; [apply count_measure|]. intros bot net cands.
  exists 1%nat. eexists. split; [|split].
  - exists 3%nat, (Poly "C"%string (upto 6)), (Q2Qc 3). split; [reflexivity|]. split; [|reflexivity].
    exists [("poly", Q2Qc 3)]%string. split; reflexivity.
  - apply qltb_true. vm_compute. reflexivity.
  - intros e He. exfalso.
    assert (E : List.length (neighbors ov_area 1 "sub"%string ex_specs2 ex_layers 1 ex_bottom ex_nb) = O)
      by (vm_compute; reflexivity).
    destruct (neighbors ov_area 1 "sub"%string ex_specs2 ex_layers 1 ex_bottom ex_nb); [destruct He|discriminate E].
Qed.

Print Assumptions C15_overlap_first_cover.
Print Assumptions C15_overlap_areas_disjoint.
Print Assumptions C16_overlap_until_missing_spec_partial.
Print Assumptions C16_missing_spec_only_affects_its_pair_refuted.
