(** Proofs about FasterCap's input files: reading the texts, the panels of a surface, and the surfaces of the layout. *)
From Coq Require Import ZArith Reals Qreals Lra Lia Psatz String Ascii List Permutation.
From Flocq Require Import Core.Core IEEE754.BinarySingleNaN.
From Verif Require Import PyBase PyLib PyStr FP_Model FP_Spec FP_Proofs NX_Model NF_Model NF_Spec NF_Proofs NF_Text NF_Round NF_Props TG_Model TG_Spec TG_Proofs ST_Model ST_Spec ST_Proofs GF_Model GF_Spec.
From Verif Require FG_Model FG_Spec FG_Proofs FG_Props TG_Props ST_Props.
Import ListNotations.
Local Close Scope Qc_scope.
Local Open Scope string_scope.
Local Open Scope list_scope.
Local Open Scope R_scope.

(** ** rows *)
Lemma newline_blank : blank newline = true. Proof. reflexivity. Qed.
Lemma rows_run a : forall r w t, all_chars (fun c => negb (blank c)) a = true -> rows_from r w (a ++ t) = rows_from r (w ++ a) t.
Proof.
  induction a as [|c a IH]; intros r w t H; [now rewrite app_nil_s|]. cbn in H. apply andb_prop in H. destruct H as [H1 H2].
  cbn [String.append rows_from]. destruct (Ascii.eqb_spec c newline) as [-> |N]; [discriminate H1|]. destruct (blank c); [discriminate|]. rewrite (IH _ _ _ H2). now rewrite app_assoc_s.
Qed.
Lemma ended_word a : a <> "" -> ended a [] = [a].
Proof. intros N. unfold ended. destruct (String.eqb_spec a ""); [contradiction|reflexivity]. Qed.
Lemma rows_word r a t : solid_word a -> rows_from r "" (a ++ String " " t) = rows_from (r ++ [a]) "" t.
Proof. intros [N H]. rewrite (rows_run _ _ _ _ H). cbn [String.append rows_from]. change (Ascii.eqb " " newline) with false. change (blank " ") with true. now rewrite (ended_word a N). Qed.
Lemma rows_last r a t : solid_word a -> rows_from r "" (a ++ nl ++ t) = (r ++ [a]) :: rows t.
Proof.
  intros [N H]. rewrite (rows_run _ _ _ _ H). change (nl ++ t)%string with (String newline t). cbn [String.append rows_from]. rewrite Ascii.eqb_refl, (ended_word a N).
  unfold rows. destruct (r ++ [a]) eqn:E; [destruct r; discriminate E|reflexivity].
Qed.
Lemma rows_space r t : rows_from r "" (String " " t) = rows_from r "" t.
Proof. cbn [rows_from]. change (Ascii.eqb " " newline) with false. change (blank " ") with true. unfold ended. cbn. now rewrite app_nil_r. Qed.
Lemma solid_app a b : solid_word a -> all_chars (fun c => negb (blank c)) b = true -> solid_word (a ++ b).
Proof. intros [N H] B. split; [destruct a; [contradiction|discriminate]|]. now rewrite all_chars_app, H. Qed.
Lemma digits_solid s : s <> "" -> all_chars isdigit s = true -> solid_word s.
Proof.
  intros N H. split; [exact N|]. revert H. apply all_chars_impl. intros c D. unfold blank.
  destruct (Ascii.eqb_spec c " "); [subst c; discriminate D|]. destruct (Ascii.eqb_spec c (ascii_of_nat 9)); [subst c; discriminate D|].
  destruct (Ascii.eqb_spec c (ascii_of_nat 10)); [subst c; discriminate D|]. destruct (Ascii.eqb_spec c (ascii_of_nat 13)); [subst c; discriminate D|]. reflexivity.
Qed.
Lemma nat_str_some n : nat_str n <> "".
Proof.
  unfold nat_str. intros E. apply (f_equal DecimalString.NilEmpty.uint_of_string) in E. rewrite DecimalString.NilEmpty.usu in E. injection E as E.
  destruct n as [|n]; [discriminate E|]. apply (f_equal Nat.of_uint) in E. rewrite DecimalNat.Unsigned.of_to in E. discriminate E.
Qed.
Lemma nat_str_solid n : solid_word (nat_str n).
Proof. apply digits_solid; [apply nat_str_some|apply FG_Proofs.nat_str_digits]. Qed.
Lemma unbroken_chars s : unbroken s -> all_chars (fun c => negb (blank c)) s = true.
Proof.
  induction s as [|c s IH]; intros H; [reflexivity|]. cbn. rewrite (H "" c s eq_refl). cbn. apply IH. intros a d b E. apply (H (String c a) d b). cbn. now rewrite E.
Qed.
Lemma space s : (" " ++ s)%string = String " " s. Proof. reflexivity. Qed.

(** ** the text of a file of panels *)
Section Text.
Variable square : float -> float.
(** a triangle and how it is read *)
Definition shown (t : TG_Model.tri) (p : panel) : Prop :=
  shows t (fst p) /\ exists rp, outside_reference_point square t = Some rp /\ shows_point rp (snd p).
Lemma shows_point_unique p c c' : shows_point p c -> shows_point p c' -> c = c'.
Proof. destruct c as [[x y] z], c' as [[x' y'] z']. intros (X & Y & Z) (X' & Y' & Z'). f_equal; [f_equal|]; eapply decimal_unique; eassumption. Qed.
Lemma shown_unique t p p' : shown t p -> shown t p' -> p = p'.
Proof.
  destruct p as [f r], p' as [f' r']. intros (S & rp & E & R) (S' & rp' & E' & R'). cbn [fst snd] in *. rewrite E in E'. injection E' as <-. rewrite (shows_point_unique _ _ _ R R').
  destruct t as [[a b] c], f as [[p q] s], f' as [[p' q'] s']. destruct S as (A & B & C), S' as (A' & B' & C').
  now rewrite (shows_point_unique _ _ _ A A'), (shows_point_unique _ _ _ B B'), (shows_point_unique _ _ _ C C').
Qed.
Lemma point_rows p c r t : shows_point p c -> rows_from r "" (to_fastcap p ++ String " " t) = rows_from (r ++ [f_text (px p); f_text (py p); f_text (pz p)]) "" t.
Proof.
  destruct c as [[x y] z]. intros (X & Y & Z). unfold to_fastcap. rewrite !app_assoc_s. cbn [String.append].
  rewrite (rows_word _ _ _ (number_word _ _ X)), (rows_word _ _ _ (number_word _ _ Y)), (rows_word _ _ _ (number_word _ _ Z)). now rewrite <- !app_assoc.
Qed.
Lemma point_row p c r t : shows_point p c -> rows_from r "" (to_fastcap p ++ nl ++ t) = (r ++ [f_text (px p); f_text (py p); f_text (pz p)]) :: rows t.
Proof.
  destruct c as [[x y] z]. intros (X & Y & Z). unfold to_fastcap. rewrite !app_assoc_s. rewrite !space.
  rewrite (rows_word _ _ _ (number_word _ _ X)), (rows_word _ _ _ (number_word _ _ Y)), (rows_last _ _ _ (number_word _ _ Z)). now rewrite <- !app_assoc.
Qed.
Lemma line_row num t p rest : shown t p -> exists line r, tri_line square num t = Some line /\ rows (line ++ rest) = r :: rows rest /\ panel_row (nat_str num) r p.
Proof.
  destruct p as [f r]. intros (S & rp & E & R). cbn [fst snd] in *. unfold tri_line. rewrite E.
  destruct t as [[a b] c], f as [[p q] s]. destruct S as (A & B & C). eexists. eexists. split; [reflexivity|]. unfold tri_to_fastcap. split.
  - unfold rows at 1. rewrite !app_assoc_s. change ("T " ++ ?s)%string with ("T" ++ String " " s)%string. rewrite rows_word by (split; [discriminate|reflexivity]).
    rewrite !space. rewrite (rows_word _ _ _ (nat_str_solid num)).
    rewrite (point_rows _ _ _ _ A), (point_rows _ _ _ _ B), (point_rows _ _ _ _ C), (point_row _ _ _ _ R). reflexivity.
  - destruct p as [[a1 a2] a3], q as [[b1 b2] b3], s as [[c1 c2] c3], r as [[r1 r2] r3]. cbn [app]. apply PanelRow.
    destruct A as (A1 & A2 & A3), B as (B1 & B2 & B3), C as (C1 & C2 & C3), R as (R1 & R2 & R3). repeat (constructor; [assumption|]). constructor.
Qed.
Lemma lines_rows num tail nm : forall ts ps, Forall2 shown ts ps -> panel_rows (nat_str num) (rows tail) [] nm ->
  exists lines, tri_lines square num ts = Some lines /\ panel_rows (nat_str num) (rows (lines ++ tail)) ps nm.
Proof.
  intros ts ps F T. induction F as [|t p ts ps S F (lines & E & R)]; [now exists ""|]. destruct (line_row num t p (lines ++ tail) S) as (line & r & EL & ER & PR).
  cbn [tri_lines]. rewrite EL, E. eexists. split; [reflexivity|]. rewrite app_assoc_s, ER. now constructor.
Qed.
(** the name that a file gives to its number *)
Definition named (g : @FG_Model.geo point) : option string := if FG_Model.g_rename g then FG_Model.g_cond g else None.
Lemma geo_reads g ps : Forall2 shown (FG_Model.g_tris g) ps -> ps <> [] -> (forall nn, FG_Model.g_cond g = Some nn -> solid_word nn) ->
  exists text, geo_text square g = Some text /\ panels text (nat_str (FG_Model.g_num g)) ps (named g).
Proof.
  intros F N W. assert (T : panel_rows (nat_str (FG_Model.g_num g)) (rows (name_line g)) [] (named g)).
  { unfold name_line, named. destruct (FG_Model.g_cond g) as [nn|]; [|destruct (FG_Model.g_rename g); constructor].
    assert (S := W nn eq_refl). destruct nn as [|c nn]; [destruct S as [X _]; contradiction|]. destruct (FG_Model.g_rename g); [|constructor].
    unfold rows. change ("N " ++ ?s)%string with ("N" ++ String " " s)%string. rewrite rows_word by (split; [discriminate|reflexivity]). rewrite !space.
    rewrite (rows_word _ _ _ (nat_str_solid _)). rewrite <- (app_nil_s nl). rewrite (rows_last _ _ _ S). constructor. }
  destruct (lines_rows (FG_Model.g_num g) (name_line g) (named g) _ _ F T) as (lines & E & R).
  unfold geo_text. rewrite E. eexists. split; [reflexivity|]. split; [exact N|]. exists ["GEO"; "File"], (rows (lines ++ name_line g)). split; [|exact R].
  unfold rows at 1. change ("0 GEO File" ++ ?s)%string with ("0" ++ String " " ("GEO" ++ String " " ("File" ++ s)))%string.
  rewrite !rows_word by (split; [discriminate|reflexivity]). rewrite rows_last by (split; [discriminate|reflexivity]). reflexivity.
Qed.
End Text.

(** ** the panels of a surface *)
Definition tame (p : point) : Prop := place_ok (px p) /\ place_ok (py p) /\ place_ok (pz p).
Definition axis (v : vec) : Prop := let '(x, y, z) := v in Rabs x <= 1 /\ Rabs y <= 1 /\ Rabs z <= 1 /\ x * x + y * y + z * z = 1.
Lemma axis_down : axis down. Proof. unfold axis, down. rewrite !abs_le. lra. Qed.
Lemma axis_opposite v : axis v -> axis (opposite v).
Proof. destruct v as [[x y] z]. unfold axis, opposite. rewrite !Rabs_Ropp. intros (A & B & C & D). repeat split; try assumption. lra. Qed.
Lemma axis_left e : edge_ok e -> axis (left e).
Proof.
  intros [A _]. unfold axis, left. assert (S : forall k, k <> 0%Z -> Z.sgn k = 1%Z \/ Z.sgn k = (-1)%Z) by (intros k; lia).
  destruct A as [[A B]|[B A]].
  - rewrite A. cbn [Z.sgn]. destruct (S _ B) as [-> | ->]; rewrite !abs_le; lra.
  - rewrite A. cbn [Z.sgn]. destruct (S _ B) as [-> | ->]; rewrite !abs_le; lra.
Qed.
Lemma written x c b : is_finite x = true -> Rabs (val x) <= b -> decimal (f_text x) c -> Rabs (c - val x) <= 5 / 10 ^ 12 * b.
Proof.
  intros F B D. destruct (C96_near x F) as (c' & D' & _ & C). rewrite (decimal_unique _ _ _ D D'). unfold close in C. eapply Rle_trans; [exact C|].
  apply Rmult_le_compat_l; [|exact B]. unfold Rdiv. apply Rmult_le_pos; [lra|]. left. apply Rinv_0_lt_compat, pow_lt. lra.
Qed.
Lemma plane_dot f v q : faces_to f v -> let '(a, b, c) := f in In q [a; b; c] -> dot (minus q a) v = 0.
Proof.
  destruct f as [[[[a1 a2] a3] [[b1 b2] b3]] [[c1 c2] c3]], v as [[x y] z]. intros (k & K & E). unfold minus, ST_Spec.cross in E. injection E as E1 E2 E3.
  intros I. assert (X : k * dot (minus q (a1, a2, a3)) (x, y, z) = 0); [|apply Rmult_integral in X; destruct X; [lra|assumption]].
  destruct I as [<- |[<- |[<- |[]]]]; unfold dot, minus.
  - ring.
  - replace (k * ((b1 - a1) * x + (b2 - a2) * y + (b3 - a3) * z)) with ((b1 - a1) * (k * x) + (b2 - a2) * (k * y) + (b3 - a3) * (k * z)) by ring. rewrite <- E1, <- E2, <- E3. ring.
  - replace (k * ((c1 - a1) * x + (c2 - a2) * y + (c3 - a3) * z)) with ((c1 - a1) * (k * x) + (c2 - a2) * (k * y) + (c3 - a3) * (k * z)) by ring. rewrite <- E1, <- E2, <- E3. ring.
Qed.
Lemma ref_written X c R x r : place_ok X -> decimal (f_text X) c -> about R (val X + x) -> Rabs x <= 1 -> decimal (f_text R) r -> Rabs (r - c - x) <= / 10000.
Proof.
  intros [F B] D [G A] V E. assert (W := written X c _ F B D). assert (BR : Rabs (val R) <= 4194307) by (apply abs_le in A, V, B; apply abs_le; lra).
  assert (W' := written R r _ G BR E). apply abs_le in W, W', A. apply abs_le. lra.
Qed.
Section Panels.
Variables (n d : Z) (square : float -> float).
Hypothesis G : grid_ok n d.
Hypothesis SQ : squares square.
Notation dbu := (lit n d).
Notation u := (IZR n / IZR d).
Lemma front t f v : shows t f -> tame (first t) -> faces square t v -> faces_to f v -> axis v -> exists r, shown square t (f, r) /\ in_front v (f, r).
Proof.
  intros S T FA FT AX. assert (PD := fun q => plane_dot f v q FT). destruct t as [[a b] c]. cbn [first fst] in T. destruct f as [[p q] s]. destruct v as [[x y] z].
  destruct FA as (rp & E & X & Y & Z). cbn [first fst] in X, Y, Z. assert (FX := proj1 X). assert (FY := proj1 Y). assert (FZ := proj1 Z).
  destruct (C96_near _ FX) as (r1 & R1 & _). destruct (C96_near _ FY) as (r2 & R2 & _). destruct (C96_near _ FZ) as (r3 & R3 & _).
  exists (r1, r2, r3). split; [split; [exact S|exists rp; now repeat split]|].
  destruct S as (A & _). destruct p as [[p1 p2] p3]. destruct A as (A1 & A2 & A3). destruct T as (T1 & T2 & T3). destruct AX as (V1 & V2 & V3 & VV).
  assert (K1 := ref_written _ _ _ _ _ T1 A1 X V1 R1). assert (K2 := ref_written _ _ _ _ _ T2 A2 Y V2 R2). assert (K3 := ref_written _ _ _ _ _ T3 A3 Z V3 R3).
  assert (K : forall e w, Rabs e <= / 10000 -> Rabs w <= 1 -> Rabs (e * w) <= / 10000).
  { intros e w A B. rewrite Rabs_mult. replace (/ 10000) with (/ 10000 * 1) by ring. apply Rmult_le_compat; try apply Rabs_pos; assumption. }
  apply (fun e => K _ _ e V1) in K1. apply (fun e => K _ _ e V2) in K2. apply (fun e => K _ _ e V3) in K3. rewrite abs_le in K1, K2, K3.
  unfold in_front. intros w I. specialize (PD w I). destruct w as [[w1 w2] w3]. unfold dot, minus in *.
  assert (Q : (r1 - w1) * x + (r2 - w2) * y + (r3 - w3) * z = (x * x + y * y + z * z) + ((r1 - p1 - x) * x + (r2 - p2 - y) * y + (r3 - p3 - z) * z)) by lra.
  rewrite Q, VV. lra.
Qed.
Lemma unit_fits : unit_ok dbu. Proof. apply G. Qed.
Lemma h_tame z p : height_ok z -> p_near p -> tame (h_point dbu z p).
Proof.
  intros [F B] [X Y]. assert (U := unit_fits). split; [exact (coord_place _ _ _ U X (coord_grid _ _ U X))|]. split; [exact (coord_place _ _ _ U Y (coord_grid _ _ U Y))|]. split; [exact F|]. cbn. lra.
Qed.
Lemma v_tame e p : edge_ok e -> p_near p -> tame (convert_point dbu (v_plane e) p).
Proof.
  intros E P. assert (U := unit_fits). destruct (convert_coord dbu e p U E P) as (X & Y & Z). destruct (at_near e (fst p) E (proj1 P)) as [NX NY].
  split; [exact (coord_place _ _ _ U NX X)|]. split; [exact (coord_place _ _ _ U NY Y)|exact (coord_place _ _ _ U (proj2 P) Z)].
Qed.
Lemma level_panel (over : bool) z z' g : height_ok z -> decimal (f_text z) z' -> tri_ok g ->
  exists p, shown square (if over then reversed (h_tri dbu z g) else h_tri dbu z g) p /\ panel_at (level u z') (if over then opposite down else down) g p.
Proof.
  intros H Z T. destruct (h_ok square dbu z g SQ unit_fits H T) as [FD FU]. destruct T as [K N]. assert (S := level_shows n d G z z' g H Z N). assert (F := level_faces n d G z' g K).
  destruct over.
  - rewrite <- opposite_down in FU. destruct (front _ _ (opposite down) (shows_back _ _ S)) as (r & A & B); [|exact FU|now apply faces_turned|apply axis_opposite, axis_down|].
    + destruct g as [[a b] c]. cbn. apply h_tame; [exact H|]. apply N.
    + exists (turned (facet_of (level u z') g), r). split; [exact A|]. split; [apply turned_corners; now apply faces_turned|exact B].
  - destruct (front _ _ (down) S) as (r & A & B); [|exact FD|exact F|apply axis_down|].
    + destruct g as [[a b] c]. cbn. apply h_tame; [exact H|]. apply N.
    + exists (facet_of (level u z') g, r). split; [exact A|]. split; [now apply facet_corners|exact B].
Qed.
Lemma wall_panel (over : bool) e g : edge_ok e -> tri_ok g ->
  exists p, shown square (if over then reversed (v_tri dbu (v_plane e) g) else v_tri dbu (v_plane e) g) p /\ panel_at (wall u e) (if over then opposite (left e) else left e) g p.
Proof.
  intros E T. destruct (v_ok square dbu e g SQ unit_fits E T) as [FD FU]. destruct T as [K N]. assert (S := wall_shows n d G e g E N). assert (F := wall_faces n d G e g E K).
  destruct over.
  - destruct (front _ _ (opposite (left e)) (shows_back _ _ S)) as (r & A & B); [|exact FU|now apply faces_turned|now apply axis_opposite, axis_left|].
    + destruct g as [[a b] c]. cbn. apply v_tame; [exact E|]. apply N.
    + exists (turned (facet_of (wall u e) g), r). split; [exact A|]. split; [apply turned_corners; now apply faces_turned|exact B].
  - destruct (front _ _ (left e) S) as (r & A & B); [|exact FD|exact F|now apply axis_left|].
    + destruct g as [[a b] c]. cbn. apply v_tame; [exact E|]. apply N.
    + exists (facet_of (wall u e) g, r). split; [exact A|]. split; [now apply facet_corners|exact B].
Qed.
Lemma each {A B C} (f : A -> B) (R : B -> C -> Prop) (S : A -> C -> Prop) l : (forall a, In a l -> exists c, R (f a) c /\ S a c) -> exists cs, Forall2 R (map f l) cs /\ Forall2 S l cs.
Proof.
  induction l as [|a l IH]; intros H; [exists []; split; constructor|]. destruct (H a (or_introl eq_refl)) as (c & X & Y). destruct IH as (cs & X' & Y'); [intros; apply H; now right|].
  exists (c :: cs). split; now constructor.
Qed.
Lemma levels (over : bool) z ts : height_ok z -> Forall tri_ok ts ->
  exists ps, Forall2 (shown square) (map (fun g => if over then reversed (h_tri dbu z g) else h_tri dbu z g) ts) ps /\ level_panels u z (if over then opposite down else down) ts ps.
Proof.
  intros H T. rewrite Forall_forall in T. destruct (C96_near z (proj1 H)) as (z' & Z & _ & C).
  destruct (each _ _ (panel_at (level u z') (if over then opposite down else down)) ts (fun g I => level_panel over z z' g H Z (T g I))) as (ps & A & B). exists ps. split; [exact A|]. exists z'. split; [|exact B]. split; [exact C|].
  intros k K R. exact (C96_unique _ _ _ Z (C96_exact z _ (proj1 H) (proj2 (proj2 (proj2 G)) k K) R)).
Qed.
Lemma walls (over : bool) e ts : edge_ok e -> Forall tri_ok ts ->
  exists ps, Forall2 (shown square) (map (fun g => if over then reversed (v_tri dbu (v_plane e) g) else v_tri dbu (v_plane e) g) ts) ps /\ wall_panels u e (if over then opposite (left e) else left e) ts ps.
Proof.
  intros H T. rewrite Forall_forall in T.
  destruct (each _ _ (panel_at (wall u e) (if over then opposite (left e) else left e)) ts (fun g I => wall_panel over e g H (T g I))) as (ps & A & B). now exists ps.
Qed.
Lemma cond_surface_panels s : cond_ok s -> exists ps, Forall2 (shown square) (cond_tris dbu s) ps /\
  match s with
  | HCondIn _ _ z ts | HCondOut _ _ z ts => level_panels u z (cond_side s) ts ps
  | VCond _ _ e ts => wall_panels u e (cond_side s) ts ps
  end.
Proof.
  destruct s as [net below z ts|net above z ts|net outside e ts]; intros [H F]; cbn [cond_tris cond_side].
  - exact (levels false z ts H F).
  - rewrite <- opposite_down. exact (levels true z ts H F).
  - exact (walls false e ts H F).
Qed.
Lemma diel_surface_panels (over : bool) s : diel_ok s -> exists ps, Forall2 (shown square) (if over then map reversed (diel_tris dbu s) else diel_tris dbu s) ps /\
  match s with
  | HDiel _ _ z ts => level_panels u z (if over then opposite (diel_side s) else diel_side s) ts ps
  | VDiel _ _ e ts => wall_panels u e (if over then opposite (diel_side s) else diel_side s) ts ps
  end.
Proof.
  destruct s as [below above z ts|outside inside e ts]; intros [H F]; cbn [diel_tris diel_side]; destruct over; unfold generate_hdiel, triangulate; rewrite ?map_map.
  - exact (levels true z ts H F).
  - exact (levels false z ts H F).
  - exact (walls true e ts H F).
  - exact (walls false e ts H F).
Qed.
End Panels.

(** ** lists of labelled triangles *)
Lemma permuted_by {A B} (R : A -> B -> Prop) a' a b : Permutation a' a -> Forall2 R a b -> exists b', Forall2 R a' b' /\ Permutation b' b.
Proof.
  intros P. revert b. induction P as [|t a b P IH|x y l|a b c P1 IH1 P2 IH2]; intros fs F.
  - inversion F; subst. exists []. split; constructor.
  - inversion F as [|? f ? fs0 X Y]; subst. destruct (IH _ Y) as (fs' & C & D). exists (f :: fs'). split; now constructor.
  - inversion F as [|? f ? fs0 X Y]; subst. inversion Y as [|? g ? fs1 C D]; subst. exists (g :: f :: fs1). split; [repeat (constructor; try assumption)|apply perm_swap].
  - destruct (IH2 _ F) as (f2 & X & Y). destruct (IH1 _ X) as (f1 & C & D). exists f1. split; [exact C|now transitivity f2].
Qed.
Lemma split_flat {A B C} (R : B -> C -> Prop) (f : A -> list B) : forall l out, Forall2 R (flat_map f l) out -> exists outs, Forall2 (fun a o => Forall2 R (f a) o) l outs /\ out = concat outs.
Proof.
  induction l as [|a l IH]; intros out F; [inversion F; exists []; split; [constructor|reflexivity]|]. cbn in F. apply Forall2_app_inv_l in F. destruct F as (o1 & o2 & F1 & F2 & ->).
  destruct (IH _ F2) as (outs & X & ->). exists (o1 :: outs). split; [now constructor|reflexivity].
Qed.
Lemma unique_list {A B} (R : A -> B -> Prop) (U : forall a b b', R a b -> R a b' -> b = b') : forall l x y, Forall2 R l x -> Forall2 R l y -> x = y.
Proof. induction l as [|a l IH]; intros x y X Y; inversion X; inversion Y; subst; [reflexivity|]. f_equal; [eapply U; eassumption|now apply IH]. Qed.

(** ** the list file *)
Definition list_row (l : FG_Model.lline) : list string :=
  match l with
  | FG_Model.DL fn ko ki => ["D"; fn; q_text ko; q_text ki; "0"; "0"; "0"; "0"; "0"; "0"]
  | FG_Model.CL fn ko plus => ["C"; fn; q_text ko; "0"; "0"; "0"] ++ if plus then ["+"] else []
  end.
Definition file_of (l : FG_Model.lline) : string := match l with FG_Model.DL fn _ _ => fn | FG_Model.CL fn _ _ => fn end.
Lemma q_solid x : solid_word (q_text x).
Proof. destruct (q_near x) as (D & H & _). exact (number_word _ _ H). Qed.
Lemma list_line_row l t : solid_word (file_of l) -> rows (list_line l ++ nl ++ t) = list_row l :: rows t.
Proof.
  intros S. unfold rows at 1. destruct l as [fn ko ki|fn ko plus]; cbn [file_of] in S; cbn [list_line list_row]; rewrite !app_assoc_s.
  - change ("D " ++ ?s)%string with ("D" ++ String " " s)%string. rewrite rows_word by (split; [discriminate|reflexivity]). rewrite !space. rewrite (rows_word _ _ _ S), (rows_word _ _ _ (q_solid _)).
    change (" 0 0 0 0 0 0" ++ ?s)%string with (String " " ("0" ++ String " " ("0" ++ String " " ("0" ++ String " " ("0" ++ String " " ("0" ++ String " " ("0" ++ s)))))))%string.
    rewrite (rows_word _ _ _ (q_solid _)). rewrite !rows_word by (split; [discriminate|reflexivity]). rewrite rows_last by (split; [discriminate|reflexivity]). reflexivity.
  - change ("C " ++ ?s)%string with ("C" ++ String " " s)%string. rewrite rows_word by (split; [discriminate|reflexivity]).
    change ("  " ++ ?s)%string with (String " " (String " " s)). rewrite (rows_word _ _ _ S), rows_space.
    change ("  0 0 0" ++ ?s)%string with (String " " (String " " ("0" ++ String " " ("0" ++ String " " ("0" ++ s)))))%string.
    rewrite (rows_word _ _ _ (q_solid _)), rows_space. rewrite !rows_word by (split; [discriminate|reflexivity]). destruct plus.
    + change (" +" ++ ?s)%string with (String " " ("+" ++ s))%string. rewrite rows_word by (split; [discriminate|reflexivity]). rewrite rows_last by (split; [discriminate|reflexivity]). reflexivity.
    + change ("" ++ ?s)%string with s. rewrite rows_last by (split; [discriminate|reflexivity]). reflexivity.
Qed.
Fixpoint ended_lines (l : list string) : string := match l with [] => "" | a :: r => (a ++ nl ++ ended_lines r)%string end.
Lemma joined x l : (String.concat nl (x :: l) ++ nl = x ++ nl ++ ended_lines l)%string.
Proof. revert x. induction l as [|y l IH]; intros x; [reflexivity|]. change (String.concat nl (x :: y :: l)) with (x ++ nl ++ String.concat nl (y :: l))%string. rewrite !app_assoc_s, IH. reflexivity. Qed.
Lemma list_text_rows k lines : Forall (fun l => solid_word (file_of l)) lines -> rows (list_text k lines) = ["*"; ("k_void=" ++ q_text k)%string] :: map list_row lines.
Proof.
  intros F. unfold list_text. rewrite joined. unfold rows at 1. change ("* k_void=" ++ ?s)%string with ("*" ++ String " " ("k_void=" ++ s))%string. rewrite app_assoc_s. cbn [String.append].
  change (String "*" (String " " ?s)) with ("*" ++ String " " s)%string. rewrite rows_word by (split; [discriminate|reflexivity]).
  match goal with |- rows_from _ _ ?x = _ => change x with ((String "k" (String "_" (String "v" (String "o" (String "i" (String "d" (String "=" (q_text k)))))))) ++ nl ++ ended_lines (map list_line lines))%string end.
  rewrite rows_last by (split; [discriminate|]; cbn; apply q_solid). f_equal.
  induction F as [|l ls S F IH]; [reflexivity|]. cbn [map ended_lines]. now rewrite (list_line_row l _ S), IH.
Qed.

(** ** what is read from it *)
Section Reading.
Variables (square : float -> float) (prefix : string) (k_void : Qc) (mats : dict string Qc) (limit : nat) (hash : string -> string) (fs : files).
Notation k_of := (FG_Model.k_of k_void mats).
Definition cond_read (a : option string * TG_Model.tri) (q : panel * R) : Prop :=
  shown square (snd a) (fst q) /\ exists k, k_of (fst a) = Some k /\ decimal (q_text k) (snd q).
Definition diel_read (a : FG_Model.hkey * TG_Model.tri) (q : interface) : Prop :=
  shown square (snd a) (fst (fst q)) /\ (exists k, k_of (fst (fst a)) = Some k /\ decimal (q_text k) (snd (fst q))) /\ (exists k, k_of (snd (fst a)) = Some k /\ decimal (q_text k) (snd q)).
Lemma cond_read_near a q : cond_read a q -> of_material k_void mats (fst a) (snd q).
Proof. intros (_ & k & K & D). exists k. split; [now apply FG_Proofs.k_of_perm|]. destruct (q_near k) as (x & X & _ & C). now rewrite (decimal_unique _ _ _ D X). Qed.
Lemma diel_read_near a q : diel_read a q -> of_material k_void mats (fst (fst a)) (snd (fst q)) /\ of_material k_void mats (snd (fst a)) (snd q).
Proof.
  intros (_ & (k & K & D) & (k' & K' & D')). split; [exists k|exists k']; (split; [now apply FG_Proofs.k_of_perm|]).
  - destruct (q_near k) as (x & X & _ & C). now rewrite (decimal_unique _ _ _ D X).
  - destruct (q_near k') as (x & X & _ & C). now rewrite (decimal_unique _ _ _ D' X).
Qed.
(** the file of an entry is there *)
Definition present (e : @FG_Model.geo point * FG_Model.lline) : Prop :=
  exists text, geo_text square (fst e) = Some text /\ dget fs (FG_Model.g_name (fst e)) = Some text.
Lemma present_file e ps : present e -> Forall2 (shown square) (FG_Model.g_tris (fst e)) ps -> ps <> [] -> (forall nn, FG_Model.g_cond (fst e) = Some nn -> solid_word nn) ->
  file fs (FG_Model.g_name (fst e)) (nat_str (FG_Model.g_num (fst e))) ps (named (fst e)).
Proof. intros (text & T & D) F N W. destruct (geo_reads square (fst e) ps F N W) as (text' & T' & P). rewrite T in T'. injection T' as <-. now exists text. Qed.
Definition net_labels (l : list (option string * list TG_Model.tri)) : list (option string * TG_Model.tri) := flat_map (fun s => map (fun t => (fst s, t)) (snd s)) l.
Lemma some_shown ts ps : Forall2 (shown square) ts ps -> ts <> [] -> ps <> [].
Proof. intros F N. destruct F; [contradiction|discriminate]. Qed.
Lemma mapped_read o k x ts ps : k_of o = Some k -> decimal (q_text k) x -> Forall2 (shown square) ts ps -> Forall2 cond_read (map (fun t => (o, t)) ts) (map (fun p => (p, x)) ps).
Proof. intros K D. induction 1 as [|t p ts ps S F IH]; constructor; [|exact IH]. split; [exact S|]. now exists k. Qed.
Lemma net_reads nn cn : solid_word nn -> forall l n a, FG_Model.write_net prefix k_void mats (Some limit) hash nn cn n l = Some a -> l <> [] ->
  (forall e, In e a -> present e) -> (forall o ts, In (o, ts) l -> ts <> [] /\ exists ps, Forall2 (shown square) ts ps) ->
  exists qs, conductor_rows fs (nat_str cn) (map (fun e => list_row (snd e)) a) qs nn /\ Forall2 cond_read (net_labels l) qs.
Proof.
  intros W. induction l as [|[o ts] l IH]; intros n a E N P S; [contradiction|]. cbn [FG_Model.write_net] in E.
  destruct (k_of o) as [k|] eqn:K; [|discriminate]. destruct (FG_Model.write_net prefix k_void mats (Some limit) hash nn cn (Datatypes.S n) l) as [t|] eqn:Et; [|discriminate]. injection E as <-.
  destruct (S o ts (or_introl eq_refl)) as (NE & ps & F). destruct (q_near k) as (x & X & _).
  set (e := (FG_Model.Geo (FG_Model.cond_name prefix (Some limit) hash (Datatypes.S n) (FG_Model.show o) nn) ts cn (Some nn) (negb (FG_Model.nonempty l)),
             FG_Model.CL (FG_Model.cond_name prefix (Some limit) hash (Datatypes.S n) (FG_Model.show o) nn) k (negb (negb (FG_Model.nonempty l))))) in *.
  assert (FE := present_file e ps (P e (or_introl eq_refl)) F (some_shown _ _ F NE) ltac:(intros m M; injection M as <-; exact W)).
  assert (MR := mapped_read o k x ts ps K X F). destruct l as [|s l].
  - injection Et as <-. exists (map (fun p => (p, x)) ps). split; [|cbn; now rewrite app_nil_r]. exact (LastFile fs (nat_str cn) (FG_Model.g_name (fst e)) _ x ps nn FE X).
  - destruct (IH _ _ Et ltac:(discriminate) ltac:(intros; apply P; now right) ltac:(intros; eapply S; right; eassumption)) as (qs & C & R).
    exists (map (fun p => (p, x)) ps ++ qs). split; [|cbn [net_labels flat_map fst snd]; now apply Forall2_app].
    exact (MoreFiles fs (nat_str cn) (FG_Model.g_name (fst e)) _ x ps _ qs nn FE X C).
Qed.
Lemma nets_read : forall g cn n b, FG_Model.write_nets prefix k_void mats (Some limit) hash cn n g = Some b ->
  (forall e, In e b -> present e) -> (forall nn l, In (nn, l) g -> solid_word nn /\ l <> [] /\ forall o ts, In (o, ts) l -> ts <> [] /\ exists ps, Forall2 (shown square) ts ps) ->
  exists cs, list_rows fs (map (fun e => list_row (snd e)) b) cs [] /\ Forall2 (fun e c => name c = fst e /\ Forall2 cond_read (net_labels (snd e)) (surface c)) g cs /\
    map number cs = map nat_str (seq (S cn) (List.length g)).
Proof.
  induction g as [|[nn l] g IH]; intros cn n b E P H; cbn [FG_Model.write_nets] in E; [injection E as <-; exists []; repeat constructor|].
  destruct (FG_Model.write_net prefix k_void mats (Some limit) hash nn (S cn) n l) as [a|] eqn:Ea; [|discriminate].
  destruct (FG_Model.write_nets prefix k_void mats (Some limit) hash (S cn) (n + List.length l) g) as [b'|] eqn:Eb; [|discriminate]. injection E as <-.
  destruct (H nn l (or_introl eq_refl)) as (W & N & S). destruct (net_reads nn (Datatypes.S cn) W l n a Ea N ltac:(intros; apply P, in_or_app; now left) S) as (qs & C & R).
  destruct (IH _ _ _ Eb ltac:(intros; apply P, in_or_app; now right) ltac:(intros; apply H; now right)) as (cs & L & F & Q).
  exists (Conductor (nat_str (Datatypes.S cn)) nn qs :: cs). split; [|split].
  - rewrite map_app. now constructor.
  - constructor; [now split|exact F].
  - cbn [map number List.length seq]. now rewrite Q.
Qed.
Definition diel_labels (d : dict FG_Model.hkey (list TG_Model.tri)) : list (FG_Model.hkey * TG_Model.tri) := flat_map (fun e => map (fun t => (fst e, t)) (snd e)) d.
Lemma diels_read : forall d n a, FG_Model.write_diel prefix k_void mats n d = Some a -> (forall e, In e a -> present e) ->
  (forall k ts, In (k, ts) d -> exists ps, Forall2 (shown square) ts ps) ->
  exists ds, Forall2 diel_read (diel_labels d) ds /\ forall rest cs ds', list_rows fs rest cs ds' -> list_rows fs (map (fun e => list_row (snd e)) a ++ rest) cs (ds ++ ds').
Proof.
  induction d as [|[k ts] d IH]; intros n a E P S; cbn [FG_Model.write_diel] in E; [injection E as <-; exists []; split; [constructor|now intros]|].
  destruct ts as [|t ts].
  - cbn [FG_Model.nonempty] in E. destruct (IH _ _ E P ltac:(intros; eapply S; right; eassumption)) as (ds & F & L). now exists ds.
  - cbn [FG_Model.nonempty] in E. destruct (k_of (fst k)) as [ko|] eqn:KO; [|discriminate]. destruct (k_of (snd k)) as [ki|] eqn:KI; [|discriminate].
    destruct (FG_Model.write_diel prefix k_void mats (Datatypes.S n) d) as [r|] eqn:Er; [|discriminate]. injection E as <-.
    destruct (S k (t :: ts) (or_introl eq_refl)) as (ps & F). destruct (q_near ko) as (x & X & _). destruct (q_near ki) as (y & Y & _).
    destruct (IH _ _ Er ltac:(intros; apply P; now right) ltac:(intros; eapply S; right; eassumption)) as (ds & D & L).
    match type of P with forall e, In e (?e0 :: _) -> _ => set (e := e0) in * end.
    assert (FE := present_file e ps (P e (or_introl eq_refl)) F (some_shown _ _ F ltac:(discriminate)) ltac:(intros m M; discriminate M)).
    exists (map (fun p => (p, x, y)) ps ++ ds). split.
    + cbn [diel_labels flat_map fst snd]. apply Forall2_app; [|exact D]. clear - F X Y KO KI. induction F as [|t0 p l ps S F IH]; constructor; [|exact IH].
      split; [exact S|]. split; [now exists ko|now exists ki].
    + intros rest cs ds' R. rewrite <- app_assoc. exact (DielectricRow fs (FG_Model.g_name (fst e)) (nat_str (Datatypes.S n)) _ _ x y "0" "0" "0" ps _ cs _ FE X Y (L rest cs ds' R)).
Qed.
End Reading.

(** ** the surfaces in the dictionaries *)
Section By.
Context {K : Type} {E : EqDec K} {X : Type} (P : K -> list TG_Model.tri -> list X).
Hypothesis P_app : forall k a b, P k (a ++ b) = P k a ++ P k b.
Lemma append_by (d : dict K (list TG_Model.tri)) k l :
  Permutation (flat_map (fun e => P (fst e) (snd e)) (TG_Model.append d k l)) (flat_map (fun e => P (fst e) (snd e)) d ++ P k l).
Proof.
  unfold TG_Model.append. induction d as [|[k' v] d IH]; cbn.
  - now rewrite app_nil_r.
  - destruct (eq_dec k k') as [-> |N]; cbn [flat_map fst snd].
    + rewrite P_app. rewrite <- !app_assoc. apply Permutation_app_head, Permutation_app_comm.
    + rewrite <- app_assoc. now apply Permutation_app_head.
Qed.
Lemma all_by {S} (key : S -> K) (tris : S -> list TG_Model.tri) (l : list S) (d : dict K (list TG_Model.tri)) :
  Permutation (flat_map (fun e => P (fst e) (snd e)) (fold_left (fun d s => TG_Model.append d (key s) (tris s)) l d))
              (flat_map (fun e => P (fst e) (snd e)) d ++ flat_map (fun s => P (key s) (tris s)) l).
Proof.
  revert d. induction l as [|s l IH]; intros d; cbn; [now rewrite app_nil_r|]. rewrite IH. rewrite app_assoc. apply Permutation_app_tail, append_by.
Qed.
Lemma added_by (d : dict K (list TG_Model.tri)) k l w : dget d k = Some l ->
  Permutation (flat_map (fun e => P (fst e) (snd e)) (dset d k (l ++ w))) (flat_map (fun e => P (fst e) (snd e)) d ++ P k w).
Proof.
  intros H. assert (A := append_by d k w). unfold TG_Model.append in A. rewrite H in A. exact A.
Qed.
End By.
Section Combined.
Context {X : Type} (P : FG_Model.hkey -> list TG_Model.tri -> list X).
Hypothesis P_app : forall k a b, P k (a ++ b) = P k a ++ P k b.
Notation all := (flat_map (fun e => P (fst e) (snd e))).
Lemma combining : forall q (dk r : dict FG_Model.hkey (list TG_Model.tri)), (forall k v, In k (dkeys q) -> P (FG_Spec.flip k) (map FG_Model.tri_rev v) = P k v) ->
  fold_left FG_Model.dk_add q (Some dk) = Some r -> Permutation (all r) (all dk ++ all q).
Proof.
  assert (HN : forall l, fold_left FG_Model.dk_add l (@None (dict FG_Model.hkey (list TG_Model.tri))) = None) by (induction l; cbn; auto).
  induction q as [|[k v] q IH]; intros dk r Hq; cbn [fold_left flat_map].
  - intros [= ->]. now rewrite app_nil_r.
  - cbn [FG_Model.dk_add fst snd]. rewrite FG_Proofs.krev_flip. match goal with |- context [match ?a with Some _ => _ | None => _ end] => destruct a as [l|] eqn:E end;
      [|match goal with |- context [match ?a with Some _ => _ | None => _ end] => destruct a as [l|] eqn:E2 end].
    + intros H. apply IH in H; [|intros; apply Hq; now right]. rewrite H, (added_by P P_app _ _ _ _ E), Hq by (now left). now rewrite <- app_assoc.
    + intros H. apply IH in H; [|intros; apply Hq; now right]. rewrite H, (added_by P P_app _ _ _ _ E2). now rewrite <- app_assoc.
    + rewrite HN. discriminate.
Qed.
Lemma combined_by (d r : dict FG_Model.hkey (list TG_Model.tri)) : dwf d -> (forall k v, In k (dkeys d) -> P (FG_Spec.flip k) (map FG_Model.tri_rev v) = P k v) ->
  (forall k, P k [] = []) -> FG_Model.combine_diel d = Some r -> Permutation (all r) (all d).
Proof.
  intros W Hd N H. apply combining in H; [|exact Hd]. rewrite H. destruct (FG_Proofs.dk_keys_inv d W) as (W1 & _ & _ & _ & I4).
  replace (all (FG_Model.dk_keys d)) with (@nil X); [reflexivity|]. symmetry. assert (A : forall k l, In (k, l) (FG_Model.dk_keys d) -> l = []) by (intros k l Hl; eapply I4, In_dget; eauto).
  clear - A N. induction (FG_Model.dk_keys d) as [|[k l] t IH]; [reflexivity|]. cbn. rewrite (A k l) by (now left). rewrite N. cbn. apply IH. intros k' l' I. apply (A k' l'). now right.
Qed.
End Combined.
Lemma same_on {A B} (f g : A -> list B) l : (forall a, In a l -> f a = g a) -> flat_map f l = flat_map g l.
Proof. induction l as [|a l IH]; intros H; [reflexivity|]. cbn. rewrite H by (now left). f_equal. apply IH. intros; apply H; now right. Qed.
Ltac ifs := match goal with |- context [if ?c then _ else _] => destruct c end.
(** dielectrics: each surface as it is in the combined dictionary *)
Definition side_labels (r : dict FG_Model.hkey (list TG_Model.tri)) (k : FG_Model.hkey) (v : list TG_Model.tri) : list (FG_Model.hkey * TG_Model.tri) :=
  if dmem r k then map (fun t => (k, t)) v else map (fun t => (FG_Spec.flip k, t)) (map reversed v).
Lemma reversed_twice v : map reversed (map FG_Model.tri_rev v) = v.
Proof. rewrite map_map. erewrite map_ext; [apply map_id|]. intros t. apply reversed2. Qed.
Lemma surface_keys dbu dl k : In k (dkeys (diel_data dbu dl)) -> exists s, In s dl /\ diel_key s = k.
Proof.
  intros I. unfold diel_data in I. assert (Y : forall l (d0 : dict FG_Model.hkey (list TG_Model.tri)), In k (dkeys (fold_left (fun d1 s => TG_Model.append d1 (diel_key s) (diel_tris dbu s)) l d0)) -> In k (dkeys d0) \/ exists s, In s l /\ diel_key s = k).
  { induction l as [|s l IH]; intros d0 J; [now left|]. cbn in J. destruct (IH _ J) as [A|(s' & A & B)]; [|right; exists s'; split; [now right|exact B]].
    unfold TG_Model.append in A. apply dkeys_dset_in in A. destruct A as [-> |A]; [right; exists s; split; [now left|reflexivity]|now left]. }
  destruct (Y dl [] I) as [[]|A]. exact A.
Qed.
Lemma diel_perm dbu dl r : Forall two_materials dl -> FG_Model.combine_diel (diel_data dbu dl) = Some r ->
  Permutation (flat_map (fun s => side_labels r (diel_key s) (diel_tris dbu s)) dl) (diel_labels r).
Proof.
  intros TM C. rewrite Forall_forall in TM. assert (W := TG_Props.diel_wf dbu dl). destruct (FG_Proofs.combine_ok _ W) as (r' & C' & (R1 & R2 & R3 & R4 & _)). rewrite C in C'. injection C' as <-.
  assert (NF : forall k, In k (dkeys (diel_data dbu dl)) -> k <> FG_Spec.flip k).
  { intros k I E. destruct (surface_keys dbu dl k I) as (s & Is & <-). apply (TM s Is). change (materials s) with (diel_key s). destruct (diel_key s) as [a b]. cbn in E. injection E as E1 E2. exact E1. }
  assert (PA : forall k a b, side_labels r k (a ++ b) = side_labels r k a ++ side_labels r k b) by (intros k a b; unfold side_labels; ifs; rewrite ?map_app; reflexivity).
  assert (L : flat_map (fun e => side_labels r (fst e) (snd e)) r = diel_labels r).
  { apply same_on. intros e I. unfold side_labels. assert (M : dmem r (fst e) = true) by (apply dmem_true; now apply in_map).
    match goal with |- (if ?a then _ else _) = _ => change a with (dmem r (fst e)) end. now rewrite M. }
  rewrite <- L. symmetry. etransitivity; [eapply (combined_by (side_labels r) PA _ r W); [|intros k; unfold side_labels; now ifs|exact C]|].
  - intros k v I. assert (N := NF k I). unfold side_labels. rewrite reversed_twice, FG_Proofs.flip_flip.
    match goal with |- (if ?a then _ else _) = (if ?b then _ else _) => destruct b eqn:M, a eqn:M' end; try reflexivity.
    + apply dmem_true in M, M'. exfalso. now apply N, R4.
    + exfalso. destruct (R3 k I) as [J|J]; apply dmem_true in J; [exact (Bool.eq_true_false_abs _ J M)|exact (Bool.eq_true_false_abs _ J M')].
  - assert (A := all_by (side_labels r) PA diel_key (diel_tris dbu) dl []). exact A.
Qed.
(** conductors: the triangles of a net *)
Definition net_part (nn : string) (k : string * option string) (v : list TG_Model.tri) : list (option string * TG_Model.tri) :=
  if String.eqb (fst k) nn then map (fun t => (snd k, t)) v else [].
Lemma net_part_app nn k a b : net_part nn k (a ++ b) = net_part nn k a ++ net_part nn k b.
Proof. unfold net_part. destruct (String.eqb (fst k) nn); [apply map_app|reflexivity]. Qed.
Lemma flat_part nn : forall g, NoDup (dkeys g) ->
  flat_map (fun e => net_part nn (fst e) (snd e)) (FG_Proofs.flat g) = match dget g nn with Some l => net_labels l | None => [] end.
Proof.
  assert (O : forall k (l : list (option string * list TG_Model.tri)), flat_map (fun e => net_part nn (fst e) (snd e)) (map (fun s => ((k, fst s), snd s)) l) = if String.eqb k nn then net_labels l else []).
  { intros k l. unfold net_part. induction l as [|s l IH]; cbn; [now destruct (String.eqb k nn)|]. rewrite IH. cbn. now destruct (String.eqb k nn). }
  induction g as [|[k l] g IH]; intros W; [reflexivity|]. inversion W as [|? ? N W']; subst.
  transitivity ((if String.eqb k nn then net_labels l else []) ++ match dget g nn with Some l => net_labels l | None => [] end).
  { unfold FG_Proofs.flat. cbn [flat_map fst snd]. rewrite flat_map_app. f_equal; [apply O|exact (IH W')]. }
  cbn [dget]. destruct (eq_dec nn k) as [-> |D].
  - rewrite String.eqb_refl. replace (dget g k) with (@None (list (option string * list TG_Model.tri))); [apply app_nil_r|]. symmetry. now apply dget_None.
  - destruct (String.eqb_spec k nn); [congruence|reflexivity].
Qed.
Lemma net_perm dbu cl nn : Permutation (flat_map (fun s => if of_net nn s then map (fun t => (snd (net_and_outside s), t)) (cond_tris dbu s) else []) cl)
  (match dget (FG_Model.group (cond_data dbu cl)) nn with Some l => net_labels l | None => [] end).
Proof.
  destruct (FG_Proofs.group_spec (cond_data dbu cl)) as (W & _ & P). rewrite <- (flat_part nn _ W). symmetry.
  etransitivity; [apply Permutation_flat_map; exact P|].
  assert (F : flat_map (fun e => net_part nn (fst e) (snd e)) (filter FG_Spec.has_tris (cond_data dbu cl)) = flat_map (fun e => net_part nn (fst e) (snd e)) (cond_data dbu cl)).
  { clear W P. induction (cond_data dbu cl) as [|[k [|t ts]] l IH]; [reflexivity| |]; cbn.
    - assert (Z : net_part nn k [] = []) by (unfold net_part; now destruct (String.eqb (fst k) nn)). rewrite Z. exact IH.
    - f_equal. exact IH. }
  rewrite F. assert (A := all_by (net_part nn) (net_part_app nn) cond_key (cond_tris dbu) cl []). exact A.
Qed.
