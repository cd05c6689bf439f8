(** C105: from the calls of the model builder to the panels that FasterCap reads. *)
From Coq Require Import ZArith Reals String List Permutation Lra Lia.
From Flocq Require Import Core.Core IEEE754.BinarySingleNaN.
From Verif Require Import PyBase PyLib FP_Model FP_Spec TG_Model TG_Spec ST_Model ST_Spec GF_Spec GF_Model VX_Model VX_Spec.
From Verif Require FP_Props TG_Props ST_Props GF_Props VX_Main.
From Verif Require SW_Model SW_Spec.
Import ListNotations.
Local Close Scope Qc_scope.
Local Open Scope string_scope.
Local Open Scope list_scope.
Local Open Scope R_scope.

Section Claims.
Variables (n d : Z) (k_void : Qc) (delaunay : list cell -> list grid_tri) (along : grid_point -> plane -> Z) (square : float -> float) (limit : nat).
Variables (prefix : string) (hash : string -> string) (cs : list call) (ls : list layer) (old new : files).
Hypothesis E : environment n d delaunay along square prefix hash.
Hypothesis L : layout_ok n d cs ls.
Hypothesis Run : fastercap_files (lit n d) delaunay along square limit prefix k_void hash cs old = Some new.
Lemma parts : exists rcs rds, reads new (prefix ++ ".lst") rcs rds /\ VX_Main.panels_right n d k_void ls rcs rds.
Proof. destruct E, L. eapply VX_Main.all_right; eassumption. Qed.
Lemma parts_of rcs rds : reads new (prefix ++ ".lst") rcs rds -> VX_Main.panels_right n d k_void ls rcs rds.
Proof. intros Rd. destruct parts as (rcs' & rds' & Rd' & P). destruct (GF_Props.C104_unique _ _ _ _ _ _ Rd Rd') as [-> ->]. exact P. Qed.
End Claims.

(** FasterCap can read the files *)
Theorem C105_read : forall n d k_void delaunay along square limit prefix hash cs ls old new,
  environment n d delaunay along square prefix hash -> layout_ok n d cs ls ->
  fastercap_files (lit n d) delaunay along square limit prefix k_void hash cs old = Some new ->
  exists rcs rds, reads new (prefix ++ ".lst") rcs rds.
Proof. intros * E L R. destruct (parts _ _ _ _ _ _ _ _ _ _ _ _ _ E L R) as (rcs & rds & X & _). eauto. Qed.

(** On the face between a cube and the one above it there are the panels that the owners call for.  Partial: a body that passes through the face
    under two different owners adds a surface of its own (C31). *)
Theorem C105_levels_partial : forall n d k_void delaunay along square limit prefix hash cs ls old new rcs rds,
  environment n d delaunay along square prefix hash -> layout_ok n d cs ls ->
  fastercap_files (lit n d) delaunay along square limit prefix k_void hash cs old = Some new -> reads new (prefix ++ ".lst") rcs rds ->
  forall q below above, level_point (IZR n / IZR d) q below above -> off_borders q rcs rds ->
  (owner ls below = owner ls above \/ forall who, ~ hidden ls below above who) ->
  seen_at k_void (values ls) q rcs rds (below_above (owner ls below) (owner ls above)).
Proof. intros * E L R Rd. exact (proj1 (parts_of _ _ _ _ _ _ _ _ _ _ _ _ _ E L R rcs rds Rd)). Qed.

(** Also with such bodies no panel is missing: each one that the owners call for is there, unless two nets touch. *)
Theorem C105_levels_found : forall n d k_void delaunay along square limit prefix hash cs ls old new rcs rds,
  environment n d delaunay along square prefix hash -> layout_ok n d cs ls ->
  fastercap_files (lit n d) delaunay along square limit prefix k_void hash cs old = Some new -> reads new (prefix ++ ".lst") rcs rds ->
  forall q below above, level_point (IZR n / IZR d) q below above -> off_borders q rcs rds ->
  ~ (exists net net', owner ls below = Some (Net net) /\ owner ls above = Some (Net net')) ->
  forall w, In w (below_above (owner ls below) (owner ls above)) -> exists x, In x (views rcs rds) /\ inside q (facet_of x) /\ shows k_void (values ls) w x.
Proof.
  intros * E L R Rd q below above Q O Ne w I. destruct (proj2 (proj2 (proj2 (proj2 (parts_of _ _ _ _ _ _ _ _ _ _ _ _ _ E L R rcs rds Rd))))) as (_ & _ & _ & H & _).
  exact (H q below above w Q O Ne I).
Qed.

(** On the face between two cubes side by side there are the panels that the owners call for.  Partial: as always, a layout with a single name is excluded. *)
Theorem C105_walls_partial : forall n d k_void delaunay along square limit prefix hash cs ls old new rcs rds,
  environment n d delaunay along square prefix hash -> layout_ok n d cs ls ->
  fastercap_files (lit n d) delaunay along square limit prefix k_void hash cs old = Some new -> reads new (prefix ++ ".lst") rcs rds ->
  forall q v first second, wall_point (IZR n / IZR d) q v first second -> off_borders q rcs rds ->
  seen_at k_void (values ls) q rcs rds (between_owners v (owner ls first) (owner ls second)).
Proof. intros * E L R Rd. exact (proj1 (proj2 (parts_of _ _ _ _ _ _ _ _ _ _ _ _ _ E L R rcs rds Rd))). Qed.

(** Inside a cube there is no panel. *)
Theorem C105_inside : forall n d k_void delaunay along square limit prefix hash cs ls old new rcs rds,
  environment n d delaunay along square prefix hash -> layout_ok n d cs ls ->
  fastercap_files (lit n d) delaunay along square limit prefix k_void hash cs old = Some new -> reads new (prefix ++ ".lst") rcs rds ->
  forall q, inner_point (IZR n / IZR d) q -> off_borders q rcs rds -> seen_at k_void (values ls) q rcs rds [].
Proof. intros * E L R Rd. exact (proj1 (proj2 (proj2 (parts_of _ _ _ _ _ _ _ _ _ _ _ _ _ E L R rcs rds Rd)))). Qed.

(** Each conductor is a net of the layout, and each net is one conductor at most. *)
Theorem C105_nets : forall n d k_void delaunay along square limit prefix hash cs ls old new rcs rds,
  environment n d delaunay along square prefix hash -> layout_ok n d cs ls ->
  fastercap_files (lit n d) delaunay along square limit prefix k_void hash cs old = Some new -> reads new (prefix ++ ".lst") rcs rds ->
  NoDup (map name rcs) /\ forall x, In x (map name rcs) -> exists r a b, In (Body (Net x) r a b) ls.
Proof.
  intros * E L R Rd. destruct (proj1 (proj2 (proj2 (proj2 (parts_of _ _ _ _ _ _ _ _ _ _ _ _ _ E L R rcs rds Rd))))) as [N I]. split; [exact N|]. intros x X. apply I in X.
  apply VX_Main.firsts_In, in_flat_map in X. destruct X as (l & J & K). destruct l as [|[y|] r a b]; try (destruct K; fail). destruct K as [<-|[]]. eauto.
Qed.

(** Each face has points that are on no side of a panel, so there is always one to ask for. *)
Theorem C105_points : forall n d k_void delaunay along square limit prefix hash cs ls old new rcs rds,
  environment n d delaunay along square prefix hash -> layout_ok n d cs ls ->
  fastercap_files (lit n d) delaunay along square limit prefix k_void hash cs old = Some new -> reads new (prefix ++ ".lst") rcs rds ->
  forall x y k, (exists q, level_point (IZR n / IZR d) q ((x, y), (k - 1)%Z) ((x, y), k) /\ off_borders q rcs rds) /\
    (exists q, wall_point (IZR n / IZR d) q (-1, 0, 0) (((x - 1)%Z, y), k) ((x, y), k) /\ off_borders q rcs rds) /\
    (exists q, wall_point (IZR n / IZR d) q (0, -1, 0) ((x, (y - 1)%Z), k) ((x, y), k) /\ off_borders q rcs rds).
Proof.
  intros * E L R Rd x y k. destruct (proj2 (proj2 (proj2 (proj2 (parts_of _ _ _ _ _ _ _ _ _ _ _ _ _ E L R rcs rds Rd))))) as (A & B & C & _). auto.
Qed.

(** ** Example: a conductor through a plate of oxide *)
Definition two_triangles (c : cell) : list grid_tri :=
  let '(x, y) := c in [((x, y), (x, y + 1), (x + 1, y)); ((x + 1, y + 1), (x + 1, y), (x, y + 1))]%Z.
Definition ex_delaunay (r : list cell) : list grid_tri := flat_map two_triangles (nodup eq_dec r).
Lemma lower_inside x y a b : inside (a, b, 0) (flat ((x, y), (x, y + 1), (x + 1, y))%Z) <-> IZR x < a /\ IZR y < b /\ (a - IZR x) + (b - IZR y) < 1.
Proof.
  unfold inside, flat, level, weighted. cbn [fst snd]. rewrite !plus_IZR. split.
  - intros (l & m & n & L & M & N & S & Q). injection Q as Q1 Q2 _. assert (l = 1 - m - n) by lra. subst l. nra.
  - intros (A & B & C). exists (1 - (a - IZR x) - (b - IZR y)), (b - IZR y), (a - IZR x). repeat (split; [lra|]). (apply f_equal2; [apply f_equal2|]); ring.
Qed.
Lemma upper_inside x y a b : inside (a, b, 0) (flat ((x + 1, y + 1), (x + 1, y), (x, y + 1))%Z) <-> a < IZR x + 1 /\ b < IZR y + 1 /\ 1 < (a - IZR x) + (b - IZR y).
Proof.
  unfold inside, flat, level, weighted. cbn [fst snd]. rewrite !plus_IZR. split.
  - intros (l & m & n & L & M & N & S & Q). injection Q as Q1 Q2 _. assert (l = 1 - m - n) by lra. subst l. nra.
  - intros (A & B & C). exists ((a - IZR x) + (b - IZR y) - 1), (IZR y + 1 - b), (IZR x + 1 - a). repeat (split; [lra|]). (apply f_equal2; [apply f_equal2|]); ring.
Qed.
Lemma lower_border x y s t : 0 < s < 1 -> 0 < t < 1 -> s + t = 1 -> on_border (IZR x + s, IZR y + t, 0) (flat ((x, y), (x, y + 1), (x + 1, y))%Z).
Proof.
  intros S T Q. exists 0, t, s. repeat (split; [lra|]). unfold flat, level, weighted. cbn [fst snd]. rewrite !plus_IZR. (apply f_equal2; [apply f_equal2|]); nra.
Qed.
Lemma same_place x a s s' : 0 < s < 1 -> 0 < s' < 1 -> IZR x + s = IZR a + s' -> x = a.
Proof.
  intros S S' Q. assert (A : IZR (x - a) < 1) by (rewrite minus_IZR; lra). assert (B : -1 < IZR (x - a)) by (rewrite minus_IZR; lra). apply lt_IZR in A. apply lt_IZR in B. lia.
Qed.
Lemma ex_triangulates : triangulates ex_delaunay.
Proof.
  intros r N. split.
  - apply Forall_forall. intros g I. apply in_flat_map in I. destruct I as ([x y] & I & J). apply nodup_In in I. rewrite Forall_forall in N. destruct (N _ I) as [X Y]. cbn [fst snd] in *.
    unfold tri_ok, tri_near, p_near, near_origin, clockwise. destruct J as [<-|[<-|[]]]; cbn [fst snd]; lia.
  - intros x y s t S T q O.
    assert (Two : forall c, (forall g, In g (two_triangles c) -> ~ on_border q (flat g)) -> exists found, picks (fun g => inside q (flat g)) (two_triangles c) found /\ List.length found = if eq_dec (x, y) c then 1%nat else 0%nat).
    { intros [a b] H. pose proof (lower_inside a b (IZR x + s) (IZR y + t)) as Lo. pose proof (upper_inside a b (IZR x + s) (IZR y + t)) as Up. destruct (eq_dec (x, y) (a, b)) as [Q|Q].
      - injection Q as <- <-. destruct (Rtotal_order (s + t) 1) as [St|[St|St]].
        + eexists. split; [apply PickIt; [apply Lo; lra|]; apply PickNot; [intros X; apply Up in X; lra|apply PickNone]|reflexivity].
        + exfalso. apply (H ((x, y), (x, y + 1), (x + 1, y))%Z); [now left|]. now apply lower_border.
        + eexists. split; [apply PickNot; [intros X; apply Lo in X; lra|]; apply PickIt; [apply Up; lra|apply PickNone]|reflexivity].
      - exists []. split; [|reflexivity].
        assert (Away : 0 < IZR x + s - IZR a < 1 -> 0 < IZR y + t - IZR b < 1 -> False).
        { intros A B. apply Q. f_equal; [apply (same_place x a s (IZR x + s - IZR a))|apply (same_place y b t (IZR y + t - IZR b))]; lra. }
        apply PickNot; [|apply PickNot; [|apply PickNone]]; intros X; [apply Lo in X|apply Up in X]; apply Away; lra. }
    assert (ND := NoDup_nodup eq_dec r). unfold ex_delaunay in *.
    assert (M : (if in_dec eq_dec (x, y) r then 1%nat else 0%nat) = if in_dec eq_dec (x, y) (nodup eq_dec r) then 1%nat else 0%nat).
    { pose proof (nodup_In eq_dec r (x, y)) as I. destruct (in_dec eq_dec (x, y) r), (in_dec eq_dec (x, y) (nodup eq_dec r)); tauto || reflexivity. }
    rewrite M. clear M N. revert O ND. generalize (nodup eq_dec r). intros l. induction l as [|c l IH]; intros O ND.
    + exists []. split; [apply PickNone|reflexivity].
    + inversion ND as [|? ? N1 N2]; subst. destruct (Two c) as (f & P & Q); [intros g I; apply O; cbn; apply in_or_app; now left|]. destruct IH as (f' & P' & Q'); [intros g I; apply O; cbn; apply in_or_app; now right|exact N2|].
      exists (f ++ f'). split; [cbn; now apply VX_Geo.picks_app|]. rewrite app_length, Q, Q'.
      destruct (eq_dec (x, y) c) as [<-|Ne].
      * destruct (in_dec eq_dec (x, y) l) as [J|J]; [contradiction|]. match goal with |- _ = if ?b then _ else _ => destruct b as [K|K] end; [reflexivity|]. exfalso. apply K. now left.
      * destruct (in_dec eq_dec (x, y) l) as [J|J]; match goal with |- _ = if ?b then _ else _ => destruct b as [K|K] end; try reflexivity; exfalso; [apply K; now right|]. destruct K as [K|K]; [congruence|contradiction].
Qed.
Lemma ex_environment : environment 1 1000 ex_delaunay TG_Props.sprod TG_Props.product "FC_" GF_Props.ex_hash.
Proof.
  split; [exact ST_Props.ex_grid|exact ex_triangulates|exact TG_Props.C94_whole|exact TG_Props.C93_squares|now apply GF_Props.unbroken_free|intros x; now apply GF_Props.unbroken_free].
Qed.
(** oxide over four squares, one unit high, and a conductor over one of them, two units high *)
Definition squares_four : list cell := [(0, 0); (0, 1); (1, 0); (1, 1)]%Z.
Definition ex_calls : list call :=
  [AddMaterial "ox" (Q2Qc 4); AddDielectric "ox" squares_four (lit 0 1) (lit 1 1000); AddConductor "A" [(1, 1)%Z] (lit 0 1) (lit 2 1000)].
Definition ex_layers : list layer := [Material "ox" (Q2Qc 4); Body (Mat "ox") squares_four 0 1; Body (Net "A") [(1, 1)%Z] 0 2].
Lemma ex_lines h : (0 < h < 10)%Z -> lines 1 1000 (lit 0 1) (lit h 1000) 0 h.
Proof.
  intros H. assert (B : 0 <= IZR h <= 10) by (split; apply IZR_le; lia).
  exists (Num 0 1), (Num h 1000). split; [reflexivity|]. split; [reflexivity|].
  unfold usual, short; cbn [written terms size exact]; unfold short. rewrite !Rabs_pos_eq by lra. repeat split; try lia; try lra.
Qed.
Lemma ex_layout : layout_ok 1 1000 ex_calls ex_layers.
Proof.
  split.
  - constructor; [constructor|]. constructor; [constructor; apply ex_lines; lia|]. constructor; [constructor; apply ex_lines; lia|constructor].
  - repeat constructor; cbn; lia.
  - repeat constructor; try (now apply GF_Props.unbroken_free); cbn; try discriminate.
  - cbn. lia.
Qed.
Notation run cs := (fastercap_files (lit 1 1000) ex_delaunay TG_Props.sprod TG_Props.product 255 "FC_" (Q2Qc 1) GF_Props.ex_hash cs []).
Lemma ex_runs : exists new, run ex_calls = Some new /\ map fst new = ["FC_1_outside=(void)_inside=ox.geo"; "FC_2_outside=(void)_net=A.geo"; "FC_3_outside=ox_net=A.geo"; "FC_.lst"].
Proof.
  assert (X : option_map (map fst) (run ex_calls) = Some ["FC_1_outside=(void)_inside=ox.geo"; "FC_2_outside=(void)_net=A.geo"; "FC_3_outside=ox_net=A.geo"; "FC_.lst"]) by (vm_compute; reflexivity).
  destruct (run ex_calls) as [new|]; [|discriminate]. exists new. split; [reflexivity|]. injection X as X. exact X.
Qed.
Example C105_case : exists new rcs rds, run ex_calls = Some new /\ reads new "FC_.lst" rcs rds /\
  (** oxide under the void, on the left *)
  (exists q, level_point (1 / 1000) q ((0, 0), 0)%Z ((0, 0), 1)%Z /\ off_borders q rcs rds /\ seen_at (Q2Qc 1) (values ex_layers) q rcs rds [Interface (Some "ox") None down]) /\
  (** the conductor under the conductor *)
  (exists q, level_point (1 / 1000) q ((1, 1), 0)%Z ((1, 1), 1)%Z /\ off_borders q rcs rds /\ seen_at (Q2Qc 1) (values ex_layers) q rcs rds []) /\
  (** the conductor under the void *)
  (exists q, level_point (1 / 1000) q ((1, 1), 1)%Z ((1, 1), 2)%Z /\ off_borders q rcs rds /\ seen_at (Q2Qc 1) (values ex_layers) q rcs rds [Outer "A" None (opposite down)]) /\
  (** oxide at the left of the conductor *)
  (exists q, wall_point (1 / 1000) q (-1, 0, 0) ((0, 1), 0)%Z ((1, 1), 0)%Z /\ off_borders q rcs rds /\ seen_at (Q2Qc 1) (values ex_layers) q rcs rds [Outer "A" (Some "ox") (-1, 0, 0)]).
Proof.
  destruct ex_runs as (new & R & _). destruct (C105_read _ _ _ _ _ _ _ _ _ _ _ _ _ ex_environment ex_layout R) as (rcs & rds & Rd). exists new, rcs, rds. split; [exact R|]. split; [exact Rd|].
  pose proof (C105_points _ _ _ _ _ _ _ _ _ _ _ _ _ _ _ ex_environment ex_layout R Rd) as P.
  pose proof (C105_levels_partial _ _ _ _ _ _ _ _ _ _ _ _ _ _ _ ex_environment ex_layout R Rd) as Lv.
  pose proof (C105_walls_partial _ _ _ _ _ _ _ _ _ _ _ _ _ _ _ ex_environment ex_layout R Rd) as Wa.
  split; [|split; [|split]].
  - destruct (P 0 0 1)%Z as ((q & A & B) & _). exists q. split; [exact A|]. split; [exact B|]. refine (Lv q _ _ A B (or_intror _)). intros who (I & _ & Y & _). cbn in I. destruct I as [<-|[<-|[]]]; discriminate.
  - destruct (P 1 1 1)%Z as ((q & A & B) & _). exists q. split; [exact A|]. split; [exact B|]. exact (Lv q _ _ A B (or_introl eq_refl)).
  - destruct (P 1 1 2)%Z as ((q & A & B) & _). exists q. split; [exact A|]. split; [exact B|]. refine (Lv q _ _ A B (or_intror _)). intros who (I & _ & Y & _). cbn in I. destruct I as [<-|[<-|[]]]; discriminate.
  - destruct (P 1 1 0)%Z as (_ & (q & A & B) & _). exists q. split; [exact A|]. split; [exact B|]. exact (Wa q _ _ _ A B).
Qed.

(** ** The full claim is false for a body that is hidden below and above *)
Lemma picks_same {A} (P : A -> Prop) l m : picks P l m -> forall m', picks P l m' -> m = m'.
Proof. induction 1 as [|x l m X H IH|x l m X H IH]; intros m' H'; inversion H'; subst; try contradiction; [reflexivity|f_equal; auto|auto]. Qed.
Lemma seen_number k mats q rcs rds ws ws' : seen_at k mats q rcs rds ws -> seen_at k mats q rcs rds ws' -> List.length ws = List.length ws'.
Proof.
  intros (f & g & P & Q & F) (f' & g' & P' & Q' & F'). rewrite (picks_same _ _ _ P _ P') in Q. apply Permutation_length in Q. apply Permutation_length in Q'.
  assert (X : forall A B (Rr : A -> B -> Prop) l m, Forall2 Rr l m -> List.length l = List.length m) by (intros A B Rr l m H; induction H; cbn; congruence).
  apply X in F. apply X in F'. congruence.
Qed.
(** two materials, one on the other, and a third one in both of them *)
Definition hidden_calls : list call :=
  [AddMaterial "m1" (Q2Qc 2); AddMaterial "m2" (Q2Qc 3); AddMaterial "m3" (Q2Qc 4); AddDielectric "m1" [(0, 0)%Z] (lit 0 1) (lit 1 1000);
   AddDielectric "m2" [(0, 0)%Z] (lit 1 1000) (lit 1 1000); AddDielectric "m3" [(0, 0)%Z] (lit 0 1) (lit 2 1000)].
Definition hidden_layers : list layer :=
  [Material "m1" (Q2Qc 2); Material "m2" (Q2Qc 3); Material "m3" (Q2Qc 4); Body (Mat "m1") [(0, 0)%Z] 0 1; Body (Mat "m2") [(0, 0)%Z] 1 2; Body (Mat "m3") [(0, 0)%Z] 0 2].
Lemma hidden_layout : layout_ok 1 1000 hidden_calls hidden_layers.
Proof.
  split.
  - do 3 (constructor; [constructor|]). constructor; [constructor; apply ex_lines; lia|]. constructor; [constructor|].
    + exists (Num 1 1000), (Num 1 1000). split; [reflexivity|]. split; [reflexivity|]. unfold usual, short; cbn [written terms size exact]; unfold short. rewrite !Rabs_pos_eq by lra. repeat split; try lia; try lra.
    + constructor; [constructor; apply ex_lines; lia|constructor].
  - repeat constructor; cbn; lia.
  - repeat constructor; now apply GF_Props.unbroken_free.
  - cbn. lia.
Qed.
Theorem C105_hidden_refuted : exists n d k_void delaunay along square limit prefix hash cs ls new rcs rds q below above,
  environment n d delaunay along square prefix hash /\ layout_ok n d cs ls /\
  fastercap_files (lit n d) delaunay along square limit prefix k_void hash cs [] = Some new /\ reads new (prefix ++ ".lst") rcs rds /\
  level_point (IZR n / IZR d) q below above /\ off_borders q rcs rds /\
  ~ seen_at k_void (values ls) q rcs rds (below_above (owner ls below) (owner ls above)).
Proof.
  assert (X : match run hidden_calls with Some _ => true | None => false end = true) by (vm_compute; reflexivity).
  destruct (run hidden_calls) as [new|] eqn:R; [clear X|discriminate].
  destruct (parts _ _ _ _ _ _ _ _ _ _ _ _ _ ex_environment hidden_layout R) as (rcs & rds & Rd & P). destruct (proj2 (proj2 (proj2 (proj2 P)))) as (Lv & _ & _ & _ & b & g & B & Ge & H).
  destruct (Lv 0 0 1)%Z as (q & Q & O).
  exists 1%Z, 1000%Z, (Q2Qc 1), ex_delaunay, TG_Props.sprod, TG_Props.product, 255%nat, "FC_", GF_Props.ex_hash, hidden_calls, hidden_layers, new, rcs, rds, q, ((0, 0), 0)%Z, ((0, 0), 1)%Z.
  split; [exact ex_environment|]. split; [exact hidden_layout|]. split; [exact R|]. split; [exact Rd|]. split; [exact Q|]. split; [exact O|]. intros Se.
  inversion Q as [x y k s t S T Eq Eb Ea]. subst. specialize (H 0 0 1 s t S T)%Z. cbv zeta in H. apply H in O. apply (seen_number _ _ _ _ _ _ _ Se) in O. rewrite map_length in O.
  assert (X : match SW_Model.build 1%Qc (map VX_Walls.as_call hidden_layers) with
    | Some b => option_map (fun g => List.length (SW_Spec.horizontals 1 (0, 0)%Z (SW_Model.surfaces g))) (SW_Model.generate piece_left piece_right (all_pieces (map VX_Walls.as_call hidden_layers)) b)
    | None => None end = Some 2%nat) by (vm_compute; reflexivity).
  rewrite B, Ge in X. cbn [option_map] in X. injection X as X. pose proof (eq_trans O X) as Y. vm_compute in Y. discriminate.
Qed.

(** ** The full claim is false for one name alone *)
(** A single net without materials loses its side walls and its top: where the conductor is under the void there is no panel. *)
Definition single_calls : list call := [AddConductor "A" [(0, 0)%Z] (lit 0 1) (lit 1 1000)].
Definition single_layers : list layer := [Body (Net "A") [(0, 0)%Z] 0 1].
(** the surfaces of a run *)
Definition surfaces_of (dbu : float) delaunay along (cs : list call) : option (list diel_surface * list cond_surface) :=
  match all_units dbu cs with
  | None => None
  | Some us =>
      match SW_Model.build 1%Qc us with
      | None => None
      | Some b =>
          match SW_Model.generate piece_left piece_right (all_pieces us) b with
          | None => None
          | Some g => match diel_surfaces dbu delaunay along (SW_Model.surfaces g), cond_surfaces dbu delaunay along (SW_Model.surfaces g) with Some dl, Some cl => Some (dl, cl) | _, _ => None end
          end
      end
  end.
Lemma by_surfaces dbu delaunay along square limit prefix k_void hash cs old :
  fastercap_files dbu delaunay along square limit prefix k_void hash cs old =
  match surfaces_of dbu delaunay along cs with Some (dl, cl) => fastercap_input square limit dbu prefix k_void (permittivities cs) hash dl cl old | None => None end.
Proof.
  unfold fastercap_files, surfaces_of. destruct (all_units dbu cs) as [us|]; [|reflexivity]. destruct (SW_Model.build 1%Qc us) as [b|]; [|reflexivity].
  destruct (SW_Model.generate piece_left piece_right (all_pieces us) b) as [g|]; [|reflexivity]. destruct (diel_surfaces _ _ _ _); [|reflexivity]. destruct (cond_surfaces _ _ _ _); reflexivity.
Qed.
Theorem C105_single_refuted : exists n d k_void delaunay along square limit prefix hash cs ls new rcs rds q below above,
  environment n d delaunay along square prefix hash /\ Forall2 (means n d) cs ls /\ Forall layer_near ls /\ Forall layer_named ls /\
  fastercap_files (lit n d) delaunay along square limit prefix k_void hash cs [] = Some new /\ reads new (prefix ++ ".lst") rcs rds /\
  level_point (IZR n / IZR d) q below above /\ off_borders q rcs rds /\ (forall who, ~ hidden ls below above who) /\
  ~ seen_at k_void (values ls) q rcs rds (below_above (owner ls below) (owner ls above)).
Proof.
  pose (cl := [HCondIn "A" None (norm2z (lit 1 1000) 0) (two_triangles (0, 0)%Z)]).
  assert (Su : surfaces_of (lit 1 1000) ex_delaunay TG_Props.sprod single_calls = Some ([], cl)) by (vm_compute; reflexivity).
  assert (X : match run single_calls with Some _ => true | None => false end = true) by (vm_compute; reflexivity).
  destruct (run single_calls) as [new|] eqn:R; [clear X|discriminate].
  pose proof R as I. rewrite by_surfaces, Su in I.
  assert (Ct : Forall tri_ok (two_triangles (0, 0)%Z)) by (apply (proj1 (ex_triangulates [(0, 0)%Z] ltac:(repeat constructor; cbn; lia)))).
  assert (Z0 : (Z.abs 0 < 1000000)%Z) by lia.
  destruct (GF_Props.C104_read 1 1000 TG_Props.product 255 "FC_" (Q2Qc 1) (permittivities single_calls) GF_Props.ex_hash [] cl ST_Props.ex_grid TG_Props.C93_squares) with (old := @nil (string * string)) (new := new) as (rcs & rds & Rd & WL).
  { constructor; [|constructor]. split; [exact (VX_Views.height_fine 1 1000 ST_Props.ex_grid 0 Z0)|exact Ct]. }
  { constructor. }
  { constructor. }
  { split; [now apply GF_Props.unbroken_free|]. split; [intros; now apply GF_Props.unbroken_free|]. split; [intros ? ? []|]. split.
    - intros s [<-|[]]. split; [discriminate|now apply GF_Props.unbroken_free].
    - intros s m [<-|[]] H. discriminate. }
  { exact I. }
  assert (No : forall x, In x (views rcs rds) -> exists v g, facet_at (level (1 / 1000) (IZR 0 * (1 / 1000))) v g (facet_of x)).
  { destruct WL as (_ & _ & _ & MC & MD). intros x J. apply in_app_or in J. destruct J as [J|J].
    - apply in_flat_map in J. destruct J as (c & J & K). apply in_map_iff in K. destruct K as (p & <- & K). destruct (VX_Main.made_source _ _ _ _ (MC c J) K) as (s & qs & A & [_ B] & C).
      apply filter_In in A. destruct A as [[<-|[]] _]. apply (VX_Views.level_exact 1 1000 ST_Props.ex_grid 0 _ _ _ Z0) in B. apply (in_map fst) in C. cbn [facet_of]. clear - B C.
      induction B as [|g p' ts ps [F _] B IH]; [destruct C|]. destruct C as [<-|C]; [|exact (IH C)]. eauto.
    - apply in_map_iff in J. destruct J as (p & <- & K). destruct (VX_Main.made_source _ _ _ _ MD K) as (s & qs & A & _). destruct A. }
  exists 1%Z, 1000%Z, (Q2Qc 1), ex_delaunay, TG_Props.sprod, TG_Props.product, 255%nat, "FC_", GF_Props.ex_hash, single_calls, single_layers, new, rcs, rds, ((0 + 1 / 2) * (1 / 1000), (0 + 1 / 2) * (1 / 1000), 1 * (1 / 1000)), ((0, 0), 0)%Z, ((0, 0), 1)%Z.
  split; [exact ex_environment|]. split; [constructor; [constructor; apply ex_lines; lia|constructor]|]. split; [repeat constructor; cbn; lia|].
  split; [repeat constructor; try (now apply GF_Props.unbroken_free); discriminate|]. split; [exact R|]. split; [exact Rd|].
  split; [apply (LevelPoint (1 / 1000) 0 0 1 (1 / 2) (1 / 2)); lra|]. split; [|split].
  - intros x J Bd. destruct (No x J) as (v & g & F). apply (VX_Points.border_plane VX_Geo.cz VX_Geo.cz_linear _ _ _ _ (IZR 0 * (1 / 1000)) _ F (fun _ => eq_refl)) in Bd. unfold VX_Geo.cz in Bd. cbn [snd] in Bd. lra.
  - intros who (J & _ & Y & _). cbn in J. destruct J as [<-|[]]. discriminate.
  - intros Se. destruct (VX_Main.seen_in (Q2Qc 1) single_layers rcs rds _ _ (Outer "A" None (opposite down)) Se) as (x & J & K & _); [now left|].
    destruct (No x J) as (v & g & F). apply (VX_Geo.in_plane VX_Geo.cz VX_Geo.cz_linear _ _ _ _ (IZR 0 * (1 / 1000)) _ F (fun _ => eq_refl)) in K. unfold VX_Geo.cz in K. cbn [snd] in K. lra.
Qed.

Print Assumptions C105_read.
Print Assumptions C105_levels_partial.
Print Assumptions C105_levels_found.
Print Assumptions C105_walls_partial.
Print Assumptions C105_inside.
Print Assumptions C105_nets.
Print Assumptions C105_points.
Print Assumptions C105_hidden_refuted.
Print Assumptions C105_single_refuted.
