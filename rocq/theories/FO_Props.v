(** C114: the substrate is the reference of the capacitance matrix. *)
From Coq Require Import ZArith Reals String List Lia Lra.
From Flocq Require Import IEEE754.BinarySingleNaN.
From Verif Require Import PyBase PyLib PyStr FP_Model FP_Spec TG_Model TG_Spec ST_Model ST_Spec GF_Spec GF_Model VX_Model VX_Spec NX_Model LG_Spec FX_Spec FE_Spec FE_Model FO_Model FO_Spec.
From Verif Require GF_Props TG_Props ST_Props VX_Main VX_Props FE_Props FO_Proofs.
Import ListNotations.
Local Close Scope Qc_scope.
Local Open Scope string_scope.
Local Open Scope list_scope.

(** The first conductor that FasterCap reads is the net that lies lowest, in whatever order the bodies were added. *)
Theorem C114_lowest_first : forall n d k_void delaunay along square limit prefix hash cs ls old new rcs rds s,
  environment n d delaunay along square prefix hash -> layout_ok n d cs ls ->
  fastercap_files (lit n d) delaunay along square limit prefix k_void hash cs old = Some new -> reads new (prefix ++ ".lst") rcs rds ->
  lies_lowest ls s -> exists c rest, rcs = c :: rest /\ name c = s.
Proof.
  intros * E L R Rd Low. destruct E, L.
  assert (X : exists rcs rds, reads new (prefix ++ ".lst") rcs rds /\ exists c t, rcs = c :: t /\ name c = s) by (eapply FO_Proofs.first_read; eassumption).
  destruct X as (rcs' & rds' & Rd' & H). destruct (GF_Props.C104_unique _ _ _ _ _ _ Rd Rd') as [-> _]. exact H.
Qed.
Print Assumptions C114_lowest_first.

(** ** The input builder puts the substrate below everything *)
Section Builder.
Variables (shapes_of_net : string -> string -> list cell) (sized : Z -> list cell -> list cell) (metals : list metal) (diffusions : list diffusion).
Variables (diffusion_height height thickness halo margin : Z) (bbox : grid_point * grid_point) (nets : list string).
Notation substrate := (substrate_region shapes_of_net sized diffusions halo margin bbox nets).
Notation built := (conductors shapes_of_net sized metals diffusions diffusion_height height thickness halo margin bbox nets).
Hypothesis Gr : grows sized.
Hypothesis Wide : (0 <= margin < halo)%Z.
Hypothesis Box : exists c, in_box bbox c.
Hypothesis Inside : forall f net, In f diffusions -> In net nets -> Forall (in_box bbox) (shapes_of_net (f_name f) net).
Lemma in_range a b x : In x (range a b) <-> (a <= x < b)%Z.
Proof.
  unfold range. rewrite in_map_iff. split.
  - intros (i & <- & I). apply in_seq in I. lia.
  - intros H. exists (Z.to_nat (x - a)). split; [lia|]. apply in_seq. lia.
Qed.
(** the corner of the halo is left of the substrate *)
Lemma substrate_corner : substrate <> [].
Proof.
  assert (Eb : exists x1 y1 x2 y2, bbox = ((x1, y1), (x2, y2))) by (destruct bbox as [[x1 y1] [x2 y2]]; eauto). destruct Eb as (x1 & y1 & x2 & y2 & Eb).
  destruct Box as ([x y] & Bx). rewrite Eb in Bx. destruct Bx as [Bx By]. cbn [fst snd] in Bx, By.
  assert (I : In (x1 - halo, y1 - halo)%Z substrate); [|intros E; rewrite E in I; destruct I].
  unfold substrate_region.
  assert (Start : In (x1 - halo, y1 - halo)%Z (box_cells (enlarged bbox halo))).
  { rewrite Eb. cbn [enlarged box_cells]. apply in_prod; apply in_range; lia. }
  revert Start. generalize (box_cells (enlarged bbox halo)).
  assert (Far : forall r, In r (diffusion_regions shapes_of_net diffusions nets) -> ~ In (x1 - halo, y1 - halo)%Z (sized margin r)).
  { intros r I J. apply in_flat_map in I. destruct I as (net & In_ & I). apply in_map_iff in I. destruct I as (f & <- & If). apply Gr in J. destruct J as ([x' y'] & J & A & _). cbn [fst snd] in A.
    pose proof (Inside f net If In_) as F. rewrite Forall_forall in F. apply F in J. rewrite Eb in J. cbn in J. lia. }
  revert Far. generalize (diffusion_regions shapes_of_net diffusions nets). intros l. induction l as [|r l IH]; intros Far c0 I; cbn [fold_left]; [exact I|].
  apply IH; [intros q J; apply Far; now right|]. apply filter_In. split; [exact I|]. apply Bool.negb_true_iff. destruct (existsb _ (sized margin r)) eqn:E; [|reflexivity].
  exfalso. apply existsb_exists in E. destruct E as (c & J & Q). apply eqb_eq in Q. subst c. apply (Far r); [now left|exact J].
Qed.
Lemma body_in net0 r0 z h net r a b : In (Body (Net net) r a b) (body net0 r0 z h) -> a = z.
Proof. unfold body. destruct r0; intros []; [|contradiction]. congruence. Qed.
Lemma built_lowest others : Forall above_zero metals -> (0 < thickness)%Z -> (0 < height + thickness)%Z -> Forall no_net others ->
  forall before after, others = before ++ after -> lies_lowest (before ++ built ++ after) "VSUBS".
Proof.
  intros M T H O before after Eo. exists substrate, (0 - height - thickness)%Z, (0 - height - thickness + thickness)%Z.
  split; [apply in_or_app; right; apply in_or_app; left; apply in_or_app; right; now left|]. split; [exact substrate_corner|]. split; [lia|].
  intros net r a b I Nr Lt. subst others. rewrite Forall_forall in O. assert (I' : In (Body (Net net) r a b) built).
  { apply in_app_or in I. destruct I as [I|I]; [destruct (O _ (in_or_app _ _ _ (or_introl I)))|]. apply in_app_or in I. destruct I as [I|I]; [exact I|destruct (O _ (in_or_app _ _ _ (or_intror I)))]. }
  apply in_app_or in I'. destruct I' as [I'|[I'|[]]].
  - left. cut (0 <= a)%Z; [lia|]. apply in_flat_map in I'. destruct I' as (net' & _ & I'). apply in_app_or in I'. destruct I' as [I'|I']; apply in_flat_map in I'; destruct I' as (m & Im & I').
    + rewrite Forall_forall in M. destruct (M m Im) as [M1 M2]. apply in_app_or in I'. destruct I' as [I'|I']; [apply body_in in I'; lia|]. destruct (m_contact m) as [[c t]|]; [|destruct I']. apply body_in in I'. lia.
    + apply in_app_or in I'. destruct I' as [I'|I']; apply body_in in I'; lia.
  - right. injection I' as <- _ <- _. split; [reflexivity|lia].
Qed.
End Builder.

(** In a run of the input builder the substrate is the first conductor that FasterCap reads, although it is added after the nets: if the substrate has a
    thickness, no metal is below the height zero, and the halo is wider than the margin around diffusions. *)
Theorem C114_substrate_first : forall shapes_of_net sized metals diffusions diffusion_height height thickness halo margin bbox nets mats diels
    n d k_void delaunay along square limit prefix hash cs old new rcs rds,
  grows sized -> (0 <= margin < halo)%Z -> (exists c, in_box bbox c) ->
  (forall f net, In f diffusions -> In net nets -> Forall (in_box bbox) (shapes_of_net (f_name f) net)) ->
  Forall above_zero metals -> (0 < thickness)%Z -> (0 < height + thickness)%Z -> Forall no_net mats -> Forall no_net diels ->
  environment n d delaunay along square prefix hash ->
  layout_ok n d cs (mats ++ conductors shapes_of_net sized metals diffusions diffusion_height height thickness halo margin bbox nets ++ diels) ->
  fastercap_files (lit n d) delaunay along square limit prefix k_void hash cs old = Some new -> reads new (prefix ++ ".lst") rcs rds ->
  exists c rest, rcs = c :: rest /\ name c = "VSUBS".
Proof.
  intros * Gr Wi Bo Ins M T H N1 N2 E L R Rd. apply (C114_lowest_first _ _ _ _ _ _ _ _ _ _ _ _ _ _ _ "VSUBS" E L R Rd).
  apply (built_lowest shapes_of_net sized metals diffusions diffusion_height height thickness halo margin bbox nets Gr Wi Bo Ins (mats ++ diels)); auto. apply Forall_app. auto.
Qed.
Print Assumptions C114_substrate_first.

(** ** The netlist *)
Lemma matrix_grounded nl ex top bb rs names s rest : has_matrix nl ex top bb rs names -> conductor_nets rs names -> names = s :: rest -> grounded_to s nl ex top bb rs names.
Proof.
  intros (pre & c & post & c' & nets & C1 & C2 & C3 & C4 & Nd & F & _ & _ & G) Cn E. cbn zeta in G.
  assert (Ln : List.length nets = List.length names) by (clear - F; induction F; cbn; congruence). assert (Lr : List.length rs = List.length names) by (clear - Cn; induction Cn; cbn; congruence).
  subst names. inversion F as [|s0 sub l l' (S1 & S2 & _) F' A1 A2]. subst. exists pre, c, post, c', sub. split; [exact C1|]. split; [reflexivity|]. split; [exact C4|]. split; [exact S2|]. split; [reflexivity|].
  intros [|j] net J Hn; [lia|]. cbn [nth_error] in Hn. assert (Hj : (j < List.length rest)%nat) by (apply nth_error_Some; congruence).
  cbn [List.length] in *. specialize (G (S j)). cbn [nth] in G.
  assert (X : exists x, nth_error l' j = Some x /\ n_name x = net /\ In x (c_nets c')).
  { clear - F' Hn. revert j Hn. induction F' as [|a x l m (B1 & B2 & _) F IH]; intros [|j] H; cbn in H; try discriminate; [injection H as <-; exists x; cbn; auto|]. exact (IH j H). }
  destruct X as (x & X1 & X2 & X3). exists x. split; [exact X3|]. split; [exact X2|]. rewrite (nth_error_nth l' j (KNet 0 EmptyString) X1) in G. split.
  - intros Q. cbn [map] in Nd. inversion Nd as [|? ? Nd1 _]; subst. apply Nd1. rewrite <- Q. apply in_map, (nth_error_In _ _ X1).
  - apply G. lia.
Qed.
Section Netlist.
Variable parse_float : string -> option Qc.
Variable combine : netlist -> netlist.
(** A FasterCap run that prints its conductors in the order of the list file: each capacitance to ground of the matrix goes to the substrate. *)
Theorem C114_ground_is_substrate : forall shapes_of_net sized metals diffusions diffusion_height height thickness halo margin bbox nets mats diels
    n d k_void delaunay along square limit prefix hash cs old new rcs rds text lpre hdr dl rowlines lpost rs nl top bb pre c post,
  grows sized -> (0 <= margin < halo)%Z -> (exists c, in_box bbox c) ->
  (forall f net, In f diffusions -> In net nets -> Forall (in_box bbox) (shapes_of_net (f_name f) net)) ->
  Forall above_zero metals -> (0 < thickness)%Z -> (0 < height + thickness)%Z -> Forall no_net mats -> Forall no_net diels ->
  environment n d delaunay along square prefix hash ->
  layout_ok n d cs (mats ++ conductors shapes_of_net sized metals diffusions diffusion_height height thickness halo margin bbox nets ++ diels) ->
  fastercap_files (lit n d) delaunay along square limit prefix k_void hash cs old = Some new -> reads new (prefix ++ ".lst") rcs rds ->
  readlines text = lpre ++ hdr :: dl :: rowlines ++ lpost -> matrix_header hdr -> says_dimension dl (List.length rowlines) ->
  Forall2 (fastercap_row parse_float) rowlines rs -> Forall (fun l => ~ matrix_header l) (rowlines ++ lpost) ->
  complete rs -> physical rs -> conductor_nets rs (map name rcs) ->
  circuits nl = pre ++ c :: post -> c_name c = top -> ~ In top (map c_name pre) -> NoDup (map n_id (c_nets c)) -> (forall net, In net nets -> In net (map n_name (c_nets c))) ->
  FE_Props.keeps_circuits combine ->
  exists ex red, fastercap_netlists parse_float combine text nl top bb = Some (ex, red) /\ grounded_to "VSUBS" nl ex top bb rs (map name rcs).
Proof.
  intros * Gr Wi Bo Ins M T H N1 N2 E L R Rd T1 T2 T3 T4 T5 Co Ph Cn Hc Ht Hp Ni Known K.
  destruct (C114_substrate_first _ _ _ _ _ _ _ _ _ _ _ _ _ _ _ _ _ _ _ _ _ _ _ _ _ _ _ Gr Wi Bo Ins M T H N1 N2 E L R Rd) as (c0 & rest & E0 & En).
  destruct (VX_Props.C105_nets _ _ _ _ _ _ _ _ _ _ _ _ _ _ _ E L R Rd) as [Nd Of].
  destruct (FE_Props.C113_fastercap parse_float combine text lpre hdr dl rowlines lpost rs (map name rcs) nl top bb pre c post T1 T2 T3 T4 T5 Co Ph Cn Nd Hc Ht Hp Ni) as (ex & red & F & Hm & _).
  - apply Forall_forall. intros x I. apply Of in I. destruct I as (r & a & b & I). rewrite Forall_forall in N1, N2. apply in_app_or in I. destruct I as [I|I]; [destruct (N1 _ I)|].
    apply in_app_or in I. destruct I as [I|I]; [|destruct (N2 _ I)]. apply in_app_or in I. destruct I as [I|[I|[]]]; [|left; congruence]. right. apply Known.
    apply in_flat_map in I. destruct I as (net & In_ & I). cut (x = net); [intros ->; exact In_|].
    assert (B : forall r0 z h, In (Body (Net x) r a b) (body net r0 z h) -> x = net) by (intros r0 z h; unfold body; intros Q; destruct r0; [destruct Q|destruct Q as [Q|[]]; congruence]).
    apply in_app_or in I. destruct I as [I|I]; apply in_flat_map in I; destruct I as (m & _ & I); apply in_app_or in I; destruct I as [I|I]; try exact (B _ _ _ I).
    destruct (m_contact m) as [[y t]|]; [exact (B _ _ _ I)|destruct I].
  - exact K.
  - exists ex, red. split; [exact F|]. apply (matrix_grounded _ _ _ _ _ _ "VSUBS" (map name rest) Hm Cn). subst rcs. cbn. now rewrite En.
Qed.
End Netlist.
Print Assumptions C114_ground_is_substrate.

(** ** Example: a net with a metal and a diffusion *)
Definition ex_shapes (l net : string) : list cell := if (l =? "met1") || (l =? "diff") then [(0, 0)%Z] else [].
Definition ex_sized (m : Z) (r : list cell) : list cell :=
  flat_map (fun c => list_prod (range (fst c - m) (fst c + m + 1)) (range (snd c - m) (snd c + m + 1))) r.
Lemma ex_grows : grows ex_sized.
Proof.
  intros m r [x y] I. apply in_flat_map in I. destruct I as ([x' y'] & I & J). exists (x', y'). split; [exact I|]. apply in_prod_iff in J. rewrite !in_range in J. cbn [fst snd] in *. lia.
Qed.
Definition ex_metals : list metal := [Metal "met1" 2 1 (Some ("via", 1%Z))].
Definition ex_diffusions : list diffusion := [Diffusion "diff" ("licon", 1%Z)].
Notation ex_bodies thickness := (conductors ex_shapes ex_sized ex_metals ex_diffusions 1 1 thickness 2 1 ((0, 0), (1, 1))%Z ["A"]).
Notation ex_region := (substrate_region ex_shapes ex_sized ex_diffusions 2 1 ((0, 0), (1, 1))%Z ["A"]).
Notation ex_calls z h := [AddMaterial "ox" (Q2Qc 4); AddConductor "A" [(0, 0)%Z] (lit 2 1000) (lit 1 1000); AddConductor "A" [(0, 0)%Z] (lit 0 1) (lit 1 1000);
  AddConductor "VSUBS" ex_region z h; AddDielectric "ox" [(0, 0)%Z] (lit 0 1) (lit 3 1000)].
Notation ex_layers thickness := ([Material "ox" (Q2Qc 4)] ++ ex_bodies thickness ++ [Body (Mat "ox") [(0, 0)%Z] 0 3]).
Lemma ex_lines a h : (-10 < a < 10)%Z -> (0 <= h < 10)%Z -> lines 1 1000 (lit a 1000) (lit h 1000) a (a + h).
Proof.
  intros A H. assert (B : (-10 <= IZR a <= 10)%R) by (split; apply IZR_le; lia). assert (C : (0 <= IZR h <= 10)%R) by (split; apply IZR_le; lia).
  exists (Num a 1000), (Num h 1000). split; [reflexivity|]. split; [reflexivity|].
  unfold usual, short; cbn [written terms size exact]; unfold short. rewrite plus_IZR. repeat split; try lia; try lra;
    repeat match goal with |- context [Rabs ?x] => rewrite (Rabs_pos_eq x) by lra | |- context [Rabs ?x] => unfold Rabs; destruct (Rcase_abs x) end; lra.
Qed.
Lemma zero_line h : (0 < h < 10)%Z -> lines 1 1000 (lit 0 1) (lit h 1000) 0 (0 + h).
Proof. exact (VX_Props.ex_lines h). Qed.
Lemma ex_five thickness : ex_layers thickness =
  [Material "ox" (Q2Qc 4); Body (Net "A") [(0, 0)%Z] 2 3; Body (Net "A") [(0, 0)%Z] 0 1; Body (Net "VSUBS") ex_region (-1 - thickness) (-1 - thickness + thickness); Body (Mat "ox") [(0, 0)%Z] 0 3].
Proof. reflexivity. Qed.
Lemma ex_near : Forall cell_near ex_region.
Proof. let r := eval vm_compute in ex_region in change ex_region with r. repeat constructor; cbn; lia. Qed.
Lemma ex_layout thickness : (0 <= thickness < 5)%Z -> layout_ok 1 1000 (ex_calls (lit (-1 - thickness) 1000) (lit thickness 1000)) (ex_layers thickness).
Proof.
  intros T. rewrite ex_five. split.
  - constructor; [constructor|]. constructor; [constructor; apply (ex_lines 2 1); lia|]. constructor; [constructor; apply (zero_line 1); lia|]. constructor; [constructor; apply ex_lines; lia|].
    constructor; [constructor; apply (zero_line 3); lia|constructor].
  - assert (One : Forall cell_near [(0, 0)%Z]) by (repeat constructor; cbn; lia). repeat (constructor; [first [exact I | split; [first [exact One | exact ex_near]|lia]]|]). constructor.
  - repeat constructor; try (now apply GF_Props.unbroken_free); cbn; try discriminate.
  - cbn. lia.
Qed.
Notation ex_run z h := (fastercap_files (lit 1 1000) VX_Props.ex_delaunay TG_Props.sprod TG_Props.product 255 "FC_" (Q2Qc 1) GF_Props.ex_hash (ex_calls z h) []).
(** the substrate is a ring of sixteen squares, added after the net *)
Example C114_case : List.length ex_region = 16%nat /\ exists new rcs rds, ex_run (lit (-2) 1000) (lit 1 1000) = Some new /\ reads new "FC_.lst" rcs rds /\
  exists c rest, rcs = c :: rest /\ name c = "VSUBS".
Proof.
  split; [reflexivity|].
  assert (X : match ex_run (lit (-2) 1000) (lit 1 1000) with Some _ => true | None => false end = true) by (vm_compute; reflexivity).
  destruct (ex_run (lit (-2) 1000) (lit 1 1000)) as [new|] eqn:R; [clear X|discriminate]. pose proof (ex_layout 1 ltac:(lia)) as L.
  destruct (VX_Props.C105_read _ _ _ _ _ _ _ _ _ _ _ _ _ VX_Props.ex_environment L R) as (rcs & rds & Rd). exists new, rcs, rds. split; [reflexivity|]. split; [exact Rd|].
  refine (C114_substrate_first ex_shapes ex_sized ex_metals ex_diffusions 1 1 1 2 1 ((0, 0), (1, 1))%Z ["A"] [Material "ox" (Q2Qc 4)] [Body (Mat "ox") [(0, 0)%Z] 0 3]
    _ _ _ _ _ _ _ _ _ _ _ _ _ _ ex_grows _ _ _ _ _ _ _ _ VX_Props.ex_environment L R Rd); try lia.
  - exists (0, 0)%Z. cbn. lia.
  - intros f net [<-|[]] [<-|[]]. repeat constructor; cbn; lia.
  - repeat constructor; cbn; lia.
  - repeat constructor.
  - repeat constructor.
Qed.
(** FasterCap reads VSUBS and A, and prints a matrix of them *)
Lemma ex_names new rcs rds : ex_run (lit (-2) 1000) (lit 1 1000) = Some new -> reads new "FC_.lst" rcs rds -> (exists c rest, rcs = c :: rest /\ name c = "VSUBS") -> map name rcs = ["VSUBS"; "A"].
Proof.
  intros R Rd (c & rest & -> & Ec). pose proof (ex_layout 1 ltac:(lia)) as L.
  destruct (VX_Props.C105_nets _ _ _ _ _ _ _ _ _ _ _ _ _ _ _ VX_Props.ex_environment L R Rd) as [Nd Of].
  destruct (VX_Props.C105_points _ _ _ _ _ _ _ _ _ _ _ _ _ _ _ VX_Props.ex_environment L R Rd 0 0 3)%Z as ((q & Q & O) & _).
  destruct (VX_Props.C105_levels_found _ _ _ _ _ _ _ _ _ _ _ _ _ _ _ VX_Props.ex_environment L R Rd q _ _ Q O) with (w := Outer "A" None (opposite down)) as (x & Ix & _ & S).
  { intros (m & m' & _ & X). vm_compute in X. discriminate X. }
  { assert (X : owner (ex_layers 1) ((0, 0), 3 - 1)%Z = Some (Net "A") /\ owner (ex_layers 1) ((0, 0), 3)%Z = None) by (split; vm_compute; reflexivity). destruct X as [X1 X2]. rewrite X1, X2. now left. }
  assert (IA : In "A" (map name (c :: rest))).
  { destruct x as [net p|p]; [|destruct S]. unfold views in Ix. apply in_app_or in Ix. destruct Ix as [Ix|Ix]; apply in_flat_map in Ix || apply in_map_iff in Ix; [|destruct Ix as (? & Y & _); discriminate Y].
    destruct Ix as (c' & I & J). apply in_map_iff in J. destruct J as (p' & J & _). injection J as Jn _. destruct p as [pp k]. destruct S as [S _]. rewrite <- S, <- Jn. apply in_map, I. }
  assert (Only : forall y, In y (map name (c :: rest)) -> y = "VSUBS" \/ y = "A").
  { intros y Y. apply Of in Y. destruct Y as (r & a & b & Y). rewrite ex_five in Y. destruct Y as [Y|[Y|[Y|[Y|[Y|[]]]]]]; try discriminate Y; injection Y as <- _ _ _; auto. }
  cbn [map] in *. rewrite Ec in *. f_equal. inversion Nd as [|? ? N1 N2]; subst. destruct IA as [IA|IA]; [discriminate IA|].
  destruct (map name rest) as [|a [|b l]]; [destruct IA| |].
  - destruct IA as [->|[]]. reflexivity.
  - exfalso. destruct (Only a) as [->| ->]; [right; now left|apply N1; now left|]. destruct (Only b) as [->| ->]; [right; right; now left|apply N1; right; now left|]. inversion N2 as [|? ? N3 _]; subst. apply N3. now left.
Qed.
Definition e_log : string :=
  "Capacitance matrix is:" ++ String PyStr.nl ("Dimension 2 x 2" ++ String PyStr.nl ("g1_VSUBS  9 -3 " ++ String PyStr.nl ("g2_A  -1 8 " ++ String PyStr.nl ("done" ++ String PyStr.nl "")))).
Definition e_rows : printed := [("g1_VSUBS", [Q2Qc 9; Q2Qc (-3)]); ("g2_A", [Q2Qc (-1); Q2Qc 8])]%list.
Definition e_nl : netlist := Netlist [Circuit "TOP" [KNet 1 "A"] []] [].
Lemma sign_row line name w w' v : line = ("" ++ name ++ "  " ++ w ++ " " ++ w' ++ " " ++ String PyStr.nl "")%string -> Forall token [name; w; w'] ->
  numbers FE_Props.sign_float [w; w'] v -> fastercap_row FE_Props.sign_float line (name, v).
Proof.
  intros -> T N. exists [w; w']. split; [|exact N]. exists 0%nat, name, [(2%nat, w); (1%nat, w')], (" " ++ String PyStr.nl "")%string. split; [reflexivity|]. split; [reflexivity|].
  split; [exact T|]. split; [repeat constructor|reflexivity].
Qed.
Example C114_ground_case : exists new rcs rds ex red, ex_run (lit (-2) 1000) (lit 1 1000) = Some new /\ reads new "FC_.lst" rcs rds /\ map name rcs = ["VSUBS"; "A"] /\
  fastercap_netlists FE_Props.sign_float (fun x => x) e_log e_nl "TOP" true = Some (ex, red) /\ grounded_to "VSUBS" e_nl ex "TOP" true e_rows (map name rcs).
Proof.
  destruct C114_case as (_ & new & rcs & rds & R & Rd & First). pose proof (ex_names new rcs rds R Rd First) as Na. pose proof (ex_layout 1 ltac:(lia)) as L.
  assert (P : exists hdr dl l1 l2 lpost, readlines e_log = [] ++ hdr :: dl :: [l1; l2] ++ lpost /\ matrix_header hdr /\ says_dimension dl 2 /\ Forall2 (fastercap_row FE_Props.sign_float) [l1; l2] e_rows /\
    Forall (fun l => ~ matrix_header l) ([l1; l2] ++ lpost)).
  { eexists _, _, _, _, [_]. split; [vm_compute; reflexivity|]. split; [reflexivity|]. split. { exists "2", "2", (String PyStr.nl ""). split; [reflexivity|]. split; [discriminate|]. split; [discriminate|]. split; [reflexivity|]. split; [reflexivity|]. split; [reflexivity|]. now right. } split.
    - constructor; [|constructor; [|constructor]].
      + apply (sign_row _ _ "9" "-3"); [reflexivity|repeat (constructor; [split; [discriminate|reflexivity]|]); constructor|repeat constructor].
      + apply (sign_row _ _ "-1" "8"); [reflexivity|repeat (constructor; [split; [discriminate|reflexivity]|]); constructor|repeat constructor].
    - repeat constructor; discriminate. }
  destruct P as (hdr & dl & l1 & l2 & lpost & P1 & P2 & P3 & P4 & P5).
  destruct (C114_ground_is_substrate FE_Props.sign_float (fun x => x) ex_shapes ex_sized ex_metals ex_diffusions 1 1 1 2 1 ((0, 0), (1, 1))%Z ["A"] [Material "ox" (Q2Qc 4)] [Body (Mat "ox") [(0, 0)%Z] 0 3]
    _ _ _ _ _ _ _ _ _ _ _ _ _ _ e_log [] hdr dl [l1; l2] lpost e_rows e_nl "TOP" true [] (Circuit "TOP" [KNet 1 "A"] []) []
    ex_grows ltac:(lia) ltac:(exists (0, 0)%Z; cbn; lia) ltac:(intros f net [<-|[]] [<-|[]]; repeat constructor; cbn; lia) ltac:(repeat constructor; cbn; lia) ltac:(lia) ltac:(lia) ltac:(repeat constructor) ltac:(repeat constructor)
    VX_Props.ex_environment L R Rd P1 P2 P3 P4 P5) as (ex & red & F & Gd).
  - repeat constructor.
  - split.
    + intros [|[|i]] [|[|j]] Hi Hj Hn; cbn in Hi, Hj; try lia; try congruence; apply qleb_true; vm_compute; reflexivity.
    + intros [|[|i]] Hi; cbn in Hi; try lia; apply qleb_true; vm_compute; reflexivity.
  - rewrite Na. repeat constructor; [exists "1"|exists "2"]; repeat split; discriminate.
  - reflexivity.
  - reflexivity.
  - intros [].
  - repeat constructor. intros [].
  - intros net [<-|[]]. now left.
  - intros x. reflexivity.
  - exists new, rcs, rds, ex, red. auto.
Qed.
(** Without a thickness of the substrate (the default of a technology file is 0) the matrix gets another reference: a net of the layout. *)
Theorem C114_flat_substrate_refuted : exists shapes_of_net sized metals diffusions diffusion_height height halo margin bbox nets mats diels
    n d k_void delaunay along square limit prefix hash cs new rcs rds c rest,
  grows sized /\ (0 <= margin < halo)%Z /\ (exists c, in_box bbox c) /\
  (forall f net, In f diffusions -> In net nets -> Forall (in_box bbox) (shapes_of_net (f_name f) net)) /\
  Forall above_zero metals /\ (0 < height + 0)%Z /\ Forall no_net mats /\ Forall no_net diels /\
  environment n d delaunay along square prefix hash /\
  layout_ok n d cs (mats ++ conductors shapes_of_net sized metals diffusions diffusion_height height 0 halo margin bbox nets ++ diels) /\
  fastercap_files (lit n d) delaunay along square limit prefix k_void hash cs [] = Some new /\ reads new (prefix ++ ".lst") rcs rds /\
  rcs = c :: rest /\ name c <> "VSUBS".
Proof.
  assert (X : match ex_run (lit (-1) 1000) (lit 0 1000) with Some _ => true | None => false end = true) by (vm_compute; reflexivity).
  destruct (ex_run (lit (-1) 1000) (lit 0 1000)) as [new|] eqn:R; [clear X|discriminate]. pose proof (ex_layout 0 ltac:(lia)) as L.
  destruct (VX_Props.C105_read _ _ _ _ _ _ _ _ _ _ _ _ _ VX_Props.ex_environment L R) as (rcs & rds & Rd).
  assert (Low : lies_lowest (ex_layers 0) "A").
  { exists [(0, 0)%Z], 0%Z, 1%Z. split; [right; right; now left|]. split; [discriminate|]. split; [lia|]. intros net r a b I _ Lt.
    destruct I as [I|[I|[I|[I|[I|[]]]]]]; try discriminate I; injection I as <- _ <- <-; [right; split; [reflexivity|lia]|right; split; [reflexivity|lia]|lia]. }
  destruct (C114_lowest_first _ _ _ _ _ _ _ _ _ _ _ _ _ _ _ "A" VX_Props.ex_environment L R Rd Low) as (c & rest & Ec & Nc).
  exists ex_shapes, ex_sized, ex_metals, ex_diffusions, 1%Z, 1%Z, 2%Z, 1%Z, ((0, 0), (1, 1))%Z, ["A"], [Material "ox" (Q2Qc 4)], [Body (Mat "ox") [(0, 0)%Z] 0 3],
    1%Z, 1000%Z, (Q2Qc 1), VX_Props.ex_delaunay, TG_Props.sprod, TG_Props.product, 255%nat, "FC_", GF_Props.ex_hash, (ex_calls (lit (-1) 1000) (lit 0 1000)), new, rcs, rds, c, rest.
  split; [exact ex_grows|]. split; [lia|]. split; [exists (0, 0)%Z; cbn; lia|]. split; [intros f net [<-|[]] [<-|[]]; repeat constructor; cbn; lia|].
  split; [repeat constructor; cbn; lia|]. split; [lia|]. split; [repeat constructor|]. split; [repeat constructor|]. split; [exact VX_Props.ex_environment|]. split; [exact L|].
  split; [exact R|]. split; [exact Rd|]. split; [exact Ec|]. rewrite Nc. discriminate.
Qed.
Print Assumptions C114_flat_substrate_refuted.
