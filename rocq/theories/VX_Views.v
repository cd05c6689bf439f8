(** What each surface shows at a point, for C105. *)
From Coq Require Import ZArith Reals String List Permutation Lra Lia.
From Flocq Require Import Core.Core IEEE754.BinarySingleNaN.
From Verif Require Import PyBase PyLib FP_Model FP_Spec TG_Model TG_Spec ST_Spec GF_Spec VX_Model VX_Spec VX_Geo VX_Walls VX_Proofs.
From Verif Require SW_Model SW_Spec SW_Run SW_Sweep VX_Sweep TG_Proofs NF_Props ST_Proofs.
Import ListNotations.
Local Close Scope Qc_scope.
Local Open Scope list_scope.
Local Open Scope R_scope.

Lemma dec_existsb {A B} {E : EqDec A} (a : A) l (x y : B) : (if in_dec eq_dec a l then x else y) = if existsb (eqb a) l then x else y.
Proof.
  destruct (in_dec eq_dec a l) as [I|I].
  - replace (existsb (eqb a) l) with true; [reflexivity|]. symmetry. apply existsb_exists. exists a. split; [exact I|apply eqb_refl].
  - replace (existsb (eqb a) l) with false; [reflexivity|]. symmetry. apply Bool.not_true_iff_false. intros X. apply existsb_exists in X. destruct X as (b & J & Q). apply eqb_eq in Q. subst. contradiction.
Qed.
Lemma existsb_in {A} {E : EqDec A} (a : A) l : existsb (eqb a) l = true <-> In a l.
Proof.
  rewrite existsb_exists. split.
  - intros (b & J & Q). apply eqb_eq in Q. now subst.
  - intros I. exists a. split; [exact I|apply eqb_refl].
Qed.

(** the direction of an edge, and the line, are those of a unit *)
Definition on_line (b : piece) (e : piece * bool) : bool := Bool.eqb (axis e) (axis (b, true)) && (line_at e =? line_at (b, true))%Z.
Lemma on_line_lid b e : on_line b e = true <-> lid e = lid (b, snd e).
Proof.
  unfold on_line, lid. rewrite andb_true_iff, Bool.eqb_true_iff, Z.eqb_eq. unfold axis, line_at. cbn [fst snd]. split.
  - intros [E1 E2]. f_equal. f_equal; assumption.
  - intros E. pose proof (f_equal fst E) as E'. split; [apply (f_equal fst E')|apply (f_equal snd E')].
Qed.
Lemma on_line_left b e : on_line b e = true -> left (edge_of e) = left (edge_of (b, snd e)).
Proof.
  unfold on_line. rewrite andb_true_iff, Bool.eqb_true_iff. intros [E _]. unfold left. rewrite !edge_dx, !edge_dy. cbn [snd]. rewrite E. destruct b; reflexivity.
Qed.

Section Views.
Variables (n d : Z) (k_void : Qc) (mats : dict string Qc) (delaunay : list cell -> list grid_tri).
Hypothesis G : grid_ok n d.
Hypothesis TR : triangulates delaunay.
Notation dbu := (lit n d).
Notation u := (IZR n / IZR d).
Notation surface := (@SW_Model.surface cell piece).
Lemma upos : 0 < u. Proof. exact (ST_Proofs.u_pos n d G). Qed.
(** ** Heights *)
Lemma height_fine k : (Z.abs k < 1000000)%Z -> height_ok (norm2z dbu k).
Proof.
  intros K. destruct G as (N & S & U & T). assert (NK : near_origin k) by (unfold near_origin; lia).
  destruct (TG_Proofs.coord_ap dbu _ k U NK (TG_Proofs.coord_grid dbu k U NK)) as [F A]. split; [exact F|].
  destruct U as (FD & D1 & D2). apply Raux.Rabs_le_inv in A.
  assert (B : Rabs (IZR k * val dbu) <= 999999 * 1).
  { rewrite Rabs_mult, (Rabs_pos_eq (val dbu)) by lra. rewrite <- abs_IZR. assert (IZR (Z.abs k) <= 999999) by (apply IZR_le; lia). assert (0 <= IZR (Z.abs k)) by (apply IZR_le; lia). apply Rmult_le_compat; lra. }
  apply Raux.Rabs_le_inv in B. unfold norm2z. apply Rabs_le. lra.
Qed.
Lemma height_exact k z' : (Z.abs k < 1000000)%Z -> height_read u (norm2z dbu k) z' -> z' = IZR k * u.
Proof.
  intros K [_ H]. apply H; [unfold near_origin; lia|]. destruct G as (N & S & _). destruct (NF_Props.grid_close n d k N S ltac:(lia)) as (_ & V & C). unfold norm2z. rewrite V. exact C.
Qed.
Lemma level_exact k v ts ps : (Z.abs k < 1000000)%Z -> level_panels u (norm2z dbu k) v ts ps -> Forall2 (panel_at (level u (IZR k * u)) v) ts ps.
Proof. intros K (z' & H & F). rewrite <- (height_exact k z' K H). exact F. Qed.

(** ** How many panels are at a point *)
Section At.
Variable q : corner.
Notation here := (fun p : panel => inside q (fst p)).
Notation shows_some v ps b := (exists found, picks here ps found /\ List.length found = (if b : bool then 1%nat else 0%nat) /\ Forall (looks v) found).
Lemma shows_none v ps : picks here ps [] -> shows_some v ps false.
Proof. intros P. exists []. split; [exact P|]. split; [reflexivity|constructor]. Qed.
Lemma flat_found k v r ts ps x y j s t : q = ((IZR x + s) * u, (IZR y + t) * u, IZR j * u) -> 0 < s < 1 -> 0 < t < 1 ->
  Forall2 (panel_at (level u (IZR k * u)) v) ts ps -> covers ts r -> (forall p, In p ps -> ~ on_border q (fst p)) -> shows_some v ps ((j =? k)%Z && existsb (eqb (x, y)) r).
Proof.
  intros Q S T F C O. destruct (Z.eqb_spec j k) as [->|Ne]; cbn [andb].
  - destruct (placed_found q (lift u (IZR k * u)) (level u (IZR k * u)) v ts r ps x y s t) as (f & X & L & M); auto.
    + intros. now apply lift_affine.
    + intros. now apply (lift_injective u _ _ _ _ _ upos) in H.
    + exists f. split; [exact X|]. split; [etransitivity; [exact L|apply dec_existsb]|exact M].
  - apply shows_none. apply (none_found q (level u (IZR k * u)) v ts ps F). intros g f Fa I. apply (in_plane cz cz_linear _ _ _ _ (IZR k * u) _ Fa) in I; [|reflexivity].
    rewrite Q in I. unfold cz in I. cbn [snd] in I. apply Rmult_eq_reg_r in I; [|pose proof upos; lra]. apply eq_IZR in I. contradiction.
Qed.
Lemma off_level k v ts ps j t : cz q = (IZR j + t) * u -> 0 < t < 1 -> Forall2 (panel_at (level u (IZR k * u)) v) ts ps -> shows_some v ps false.
Proof.
  intros Q T F. apply shows_none. apply (none_found q (level u (IZR k * u)) v ts ps F). intros g f Fa I. apply (in_plane cz cz_linear _ _ _ _ (IZR k * u) _ Fa) in I; [|reflexivity].
  rewrite Q in I. exact (off_grid j t k u upos T I).
Qed.
Lemma off_wall e v ts ps x y s t : cx q = (IZR x + s) * u -> cy q = (IZR y + t) * u -> 0 < s < 1 -> 0 < t < 1 -> Forall2 (panel_at (wall u (edge_of e)) v) ts ps -> shows_some v ps false.
Proof.
  intros QX QY S T F. apply shows_none. apply (none_found q _ v ts ps F). intros g f Fa I. destruct (axis e) eqn:A.
  - apply (in_plane cy cy_linear _ _ _ _ (IZR (line_at e) * u) _ Fa) in I; [|intros p; rewrite wall_raise; unfold raise; rewrite A; reflexivity].
    rewrite QY in I. exact (off_grid _ _ _ _ upos T I).
  - apply (in_plane cx cx_linear _ _ _ _ (IZR (line_at e) * u) _ Fa) in I; [|intros p; rewrite wall_raise; unfold raise; rewrite A; reflexivity].
    rewrite QX in I. exact (off_grid _ _ _ _ upos S I).
Qed.
Lemma wall_found e v r ts ps b j s t : q = raise u (b, true) (IZR (start b) + s) (IZR j + t) -> 0 < s < 1 -> 0 < t < 1 ->
  Forall2 (panel_at (wall u (edge_of e)) v) ts ps -> covers ts r -> (forall p, In p ps -> ~ on_border q (fst p)) ->
  shows_some v ps (on_line b e && existsb (eqb (pos (b, snd e), j)) r).
Proof.
  intros Q S T F C O. destruct (on_line b e) eqn:E; cbn [andb].
  - unfold on_line in E. apply andb_true_iff in E. rewrite Bool.eqb_true_iff, Z.eqb_eq in E. destruct E as [E1 E2].
    destruct (placed_found q (raise u e) (wall u (edge_of e)) v ts r ps (pos (b, snd e)) j (if snd e then s else 1 - s) t) as (f & X & L & M); auto.
    + intros. now apply raise_affine.
    + intros. now apply (raise_injective u _ _ _ _ _ upos) in H.
    + intros g. apply wall_raise.
    + destruct (snd e); lra.
    + rewrite Q. unfold raise. rewrite E1, E2. cbn [snd sign]. unfold pos. cbn [fst snd]. destruct (snd e); cbn [sign].
      * destruct (axis (b, true)); reflexivity.
      * rewrite minus_IZR, opp_IZR. destruct (axis (b, true)); (apply f_equal2; [apply f_equal2|]); ring.
    + exists f. split; [exact X|]. split; [etransitivity; [exact L|apply dec_existsb]|exact M].
  - apply shows_none. apply (none_found q _ v ts ps F). intros g f Fa I. unfold on_line in E.
    assert (Same : axis e = axis (b, true) -> IZR (line_at (b, true)) * u = IZR (line_at e) * u -> False).
    { intros E1 E2. apply Rmult_eq_reg_r in E2; [|pose proof upos; lra]. apply eq_IZR in E2. rewrite E1, E2, Z.eqb_refl, Bool.eqb_reflx in E. discriminate. }
    destruct (axis e) eqn:A.
    + apply (in_plane cy cy_linear _ _ _ _ (IZR (line_at e) * u) _ Fa) in I; [|intros p; rewrite wall_raise; unfold raise; rewrite A; reflexivity].
      rewrite Q in I. unfold raise in I. destruct (axis (b, true)) eqn:B; cbn in I.
      * apply Same; [reflexivity|exact I].
      * rewrite Rmult_1_l in I. exact (off_grid _ _ _ _ upos S I).
    + apply (in_plane cx cx_linear _ _ _ _ (IZR (line_at e) * u) _ Fa) in I; [|intros p; rewrite wall_raise; unfold raise; rewrite A; reflexivity].
      rewrite Q in I. unfold raise in I. destruct (axis (b, true)) eqn:B; cbn in I.
      * rewrite Rmult_1_l in I. exact (off_grid _ _ _ _ upos S I).
      * apply Same; [reflexivity|exact I].
Qed.

(** ** What a surface shows *)
Lemma wants_cond s b : (forall v ps, v = cond_side s -> match s with HCondIn _ _ z ts | HCondOut _ _ z ts => level_panels u z v ts ps | VCond _ _ e ts => wall_panels u e v ts ps end ->
    (forall p, In p ps -> ~ on_border q (fst p)) -> shows_some v ps b) ->
  (b = true -> cond_triangles s <> []) -> wants_c u k_void mats q s (if b then [Outer (net_of s) (snd (net_and_outside s)) (cond_side s)] else []).
Proof.
  intros H T. split.
  - intros qs [M P] O. destruct (H (cond_side s) (map fst qs) eq_refl) as (f & X & L & F).
    + destruct s; exact P.
    + intros p I. apply in_map_iff in I. destruct I as (x & <- & I). apply O, I.
    + exact (cond_show k_void mats q s (cond_side s) qs b f M X L F).
  - intros Ne. apply T. destruct b; congruence.
Qed.
Lemma wants_diel s b : (forall v ps, match s with HDiel _ _ z ts => level_panels u z v ts ps | VDiel _ _ e ts => wall_panels u e v ts ps end ->
    (forall p, In p ps -> ~ on_border q (fst p)) -> shows_some v ps b) ->
  wants_d u k_void mats q s (if b then [Interface (fst (materials s)) (snd (materials s)) (diel_side s)] else []).
Proof.
  intros H qs (m & m' & v & B & M & P) O. destruct (H v (map (fun x : interface => fst (fst x)) qs)) as (f & X & L & F).
  - destruct s; exact P.
  - intros p I. apply in_map_iff in I. destruct I as (x & <- & I). apply O, I.
  - exact (diel_show k_void mats q s m m' v qs b f B M X L F).
Qed.
End At.

(** ** Labels *)
Definition wanted_h (l : SW_Spec.hlabel) : wanted :=
  match l with SW_Spec.LDiel b a => Interface b a down | SW_Spec.LBottom net m => Outer net m down | SW_Spec.LTop net m => Outer net m up end.
Definition wanted_v (b : piece) (l : SW_Spec.vlabel) : wanted :=
  match l with SW_Spec.LVDiel o i dr => Interface o i (left (edge_of (b, dr))) | SW_Spec.LVCond net o dr => Outer net o (left (edge_of (b, dr))) end.
Definition surface_near (s : surface) : Prop :=
  match s with SW_Model.HDiel z _ _ r | SW_Model.HCondIn z _ _ r | SW_Model.HCondOut z _ _ r => (Z.abs z < 1000000)%Z /\ Forall cell_near r | _ => True end.
Definition vc (x : (string * option string) * (piece * bool) * list cell) : cond_surface := let '(k, e, r) := x in VCond (fst k) (snd k) (edge_of e) (delaunay r).
Definition vd (x : (option string * option string) * (piece * bool) * list cell) : diel_surface := let '(k, e, r) := x in VDiel (fst k) (snd k) (edge_of e) (delaunay r).
Notation entry_cells x := (Forall cell_near (snd x)).
Definition seen_c (b : piece) (j : Z) (x : (string * option string) * (piece * bool) * list cell) : list SW_Spec.vlabel :=
  let '(k, e, r) := x in if on_line b e && existsb (eqb (pos (b, snd e), j)) r then [SW_Spec.LVCond (fst k) (snd k) (snd e)] else [].
Definition seen_d (b : piece) (j : Z) (x : (option string * option string) * (piece * bool) * list cell) : list SW_Spec.vlabel :=
  let '(k, e, r) := x in if on_line b e && existsb (eqb (pos (b, snd e), j)) r then [SW_Spec.LVDiel (fst k) (snd k) (snd e)] else [].
Lemma dcovers r : Forall cell_near r -> covers (delaunay r) r. Proof. intros N. apply (TR r N). Qed.
Lemma some_triangles (b : bool) (c : cell) r : Forall cell_near r -> b && existsb (eqb c) r = true -> delaunay r <> [].
Proof. intros N E. apply andb_true_iff in E. destruct E as [_ E]. apply existsb_in in E. exact (covers_some _ _ _ (dcovers r N) E). Qed.

(** *** Level points *)
Section LevelPoint.
Variables (x y j : Z) (s t : R).
Hypothesis S : 0 < s < 1.
Hypothesis T : 0 < t < 1.
Notation q := ((IZR x + s) * u, (IZR y + t) * u, IZR j * u).
Lemma level_c sf c : surface_near sf -> In c (h_cond dbu delaunay sf) -> wants_c u k_void mats q c (map wanted_h (SW_Spec.hlabel_at j (x, y) sf)).
Proof.
  intros N I. destruct sf as [| z net m r | z net m r | |]; cbn [h_cond] in I; try (destruct I); destruct H as []; destruct N as [NZ NR].
  all: cbn [SW_Spec.hlabel_at].
  - replace (map wanted_h _) with (if (j =? z)%Z && existsb (eqb (x, y)) r then [Outer net m down] else []) by (destruct ((j =? z)%Z && existsb (eqb (x, y)) r); reflexivity).
    apply (wants_cond q (HCondIn net m (norm2z dbu z) (delaunay r))); cbn [cond_triangles].
    + intros v ps _ P O. exact (flat_found q z v r _ ps x y j s t eq_refl S T (level_exact _ _ _ _ NZ P) (dcovers r NR) O).
    + apply some_triangles, NR.
  - replace (map wanted_h _) with (if (j =? z)%Z && existsb (eqb (x, y)) r then [Outer net m up] else []) by (destruct ((j =? z)%Z && existsb (eqb (x, y)) r); reflexivity).
    apply (wants_cond q (HCondOut net m (norm2z dbu z) (delaunay r))); cbn [cond_triangles].
    + intros v ps _ P O. exact (flat_found q z v r _ ps x y j s t eq_refl S T (level_exact _ _ _ _ NZ P) (dcovers r NR) O).
    + apply some_triangles, NR.
Qed.
Lemma level_d sf c : surface_near sf -> In c (h_diel dbu delaunay sf) -> wants_d u k_void mats q c (map wanted_h (SW_Spec.hlabel_at j (x, y) sf)).
Proof.
  intros N I. destruct sf as [z m m' r| | | |]; cbn [h_diel] in I; try (destruct I); destruct H as []; destruct N as [NZ NR].
  cbn [SW_Spec.hlabel_at].
  replace (map wanted_h _) with (if (j =? z)%Z && existsb (eqb (x, y)) r then [Interface m m' down] else []) by (destruct ((j =? z)%Z && existsb (eqb (x, y)) r); reflexivity).
  apply (wants_diel q (HDiel m m' (norm2z dbu z) (delaunay r))).
  intros v ps P O. exact (flat_found q z v r _ ps x y j s t eq_refl S T (level_exact _ _ _ _ NZ P) (dcovers r NR) O).
Qed.
End LevelPoint.
(** *** Walls at points between vertical lines, and levels between heights *)
Lemma between_c q x y s t e : cx q = (IZR x + s) * u -> cy q = (IZR y + t) * u -> 0 < s < 1 -> 0 < t < 1 -> wants_c u k_void mats q (vc e) [].
Proof.
  intros QX QY S T. destruct e as [[k e] r]. apply (wants_cond q (VCond (fst k) (snd k) (edge_of e) (delaunay r)) false); [|discriminate].
  intros v ps _ P O. exact (off_wall q e v _ ps x y s t QX QY S T P).
Qed.
Lemma between_d q x y s t e : cx q = (IZR x + s) * u -> cy q = (IZR y + t) * u -> 0 < s < 1 -> 0 < t < 1 -> wants_d u k_void mats q (vd e) [].
Proof.
  intros QX QY S T. destruct e as [[k e] r]. apply (wants_diel q (VDiel (fst k) (snd k) (edge_of e) (delaunay r)) false).
  intros v ps P O. exact (off_wall q e v _ ps x y s t QX QY S T P).
Qed.
Lemma above_c q j t sf c : cz q = (IZR j + t) * u -> 0 < t < 1 -> surface_near sf -> In c (h_cond dbu delaunay sf) -> wants_c u k_void mats q c [].
Proof.
  intros Q T N I. destruct sf as [| z net m r | z net m r | |]; cbn [h_cond] in I; try (destruct I); destruct H as []; destruct N as [NZ NR].
  - apply (wants_cond q (HCondIn net m (norm2z dbu z) (delaunay r)) false); [|discriminate].
    intros v ps _ P O. exact (off_level q z v _ ps j t Q T (level_exact _ _ _ _ NZ P)).
  - apply (wants_cond q (HCondOut net m (norm2z dbu z) (delaunay r)) false); [|discriminate].
    intros v ps _ P O. exact (off_level q z v _ ps j t Q T (level_exact _ _ _ _ NZ P)).
Qed.
Lemma above_d q j t sf c : cz q = (IZR j + t) * u -> 0 < t < 1 -> surface_near sf -> In c (h_diel dbu delaunay sf) -> wants_d u k_void mats q c [].
Proof.
  intros Q T N I. destruct sf as [z m m' r| | | |]; cbn [h_diel] in I; try (destruct I); destruct H as []; destruct N as [NZ NR].
  apply (wants_diel q (HDiel m m' (norm2z dbu z) (delaunay r)) false).
  intros v ps P O. exact (off_level q z v _ ps j t Q T (level_exact _ _ _ _ NZ P)).
Qed.
(** *** Wall points *)
Section WallPoint.
Variables (b : piece) (j : Z) (s t : R).
Hypothesis S : 0 < s < 1.
Hypothesis T : 0 < t < 1.
Notation q := (raise u (b, true) (IZR (start b) + s) (IZR j + t)).
Lemma wall_c e : entry_cells e -> wants_c u k_void mats q (vc e) (map (wanted_v b) (seen_c b j e)).
Proof.
  intros N. destruct e as [[k e] r]. cbn [snd] in N. unfold seen_c.
  replace (map (wanted_v b) _) with (if on_line b e && existsb (eqb (pos (b, snd e), j)) r then [Outer (fst k) (snd k) (left (edge_of e))] else []).
  - apply (wants_cond q (VCond (fst k) (snd k) (edge_of e) (delaunay r))); cbn [cond_triangles].
    + intros v ps _ P O. exact (wall_found q e v r _ ps b j s t eq_refl S T P (dcovers r N) O).
    + apply some_triangles, N.
  - destruct (on_line b e) eqn:E; [|reflexivity]. cbn [andb]. destruct (existsb (eqb (pos (b, snd e), j)) r); [|reflexivity]. cbn. now rewrite (on_line_left b e E).
Qed.
Lemma wall_d e : entry_cells e -> wants_d u k_void mats q (vd e) (map (wanted_v b) (seen_d b j e)).
Proof.
  intros N. destruct e as [[k e] r]. cbn [snd] in N. unfold seen_d.
  replace (map (wanted_v b) _) with (if on_line b e && existsb (eqb (pos (b, snd e), j)) r then [Interface (fst k) (snd k) (left (edge_of e))] else []).
  - apply (wants_diel q (VDiel (fst k) (snd k) (edge_of e) (delaunay r))).
    intros v ps P O. exact (wall_found q e v r _ ps b j s t eq_refl S T P (dcovers r N) O).
  - destruct (on_line b e) eqn:E; [|reflexivity]. cbn [andb]. destruct (existsb (eqb (pos (b, snd e), j)) r); [|reflexivity]. cbn. now rewrite (on_line_left b e E).
Qed.
End WallPoint.
End Views.
