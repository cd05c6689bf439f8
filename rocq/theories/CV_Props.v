(** C55: converting a layout to the layers of the other PDK. *)
From Coq Require Import String Ascii ZArith Permutation Lia.
From Verif Require Import PyBase PyLib CV_Model CV_Spec CV_Proofs.
Local Open Scope string_scope.
Local Open Scope list_scope.

(** Every shape of the source is on exactly the layers its own layer is sent to by the table (a dummy layer if it is in no
    entry), and nothing else is in the result. *)
Theorem C55_moved : forall shape m src dest (l : layout shape), sensible m src dest -> in_file l ->
  exists out, map_gds_layers m src dest l = Some out /\
    forall p, exists sel, (forall q, sel q = true <-> belongs m src dest q p) /\
      Permutation (shapes_at out p) (flat_map (fun e => if sel (fst e) then snd e else []) l).
Proof.
  intros shape m src dest l S N. destruct (table_ok m src dest S) as (table & E & T).
  eexists. split; [apply (map_gds_layers_ok m src dest table E); [apply T|exact N]|]. intros p.
  exists (fun q => existsb (eqb p) (targets_of table q)). split.
  - intros q. destruct (T q) as (_ & _ & B). rewrite <- B. rewrite existsb_exists. split.
    + intros (x & J & X). apply (proj1 (eqb_true _ _)) in X. now subst.
    + intros J. exists p. split; [exact J|apply eqb_refl].
  - apply shapes_at_result; intros q; apply T.
Qed.
Print Assumptions C55_moved.

(** A name that neither PDK knows stops the conversion of every layout with a layer. *)
Theorem C55_unknown : forall shape m src dest (l : layout shape) s ds, In (s, ds) m ->
  (~ known src s \/ exists d, In d ds /\ ~ known dest d) -> l <> [] -> map_gds_layers m src dest l = None.
Proof.
  intros shape m src dest l s ds J U N. pose proof (table_bad m src dest s ds J U) as E. unfold map_gds_layers.
  destruct l as [|e l]; [congruence|]. cbn [map fold_left]. unfold map_layer at 2. rewrite E.
  generalize (map fst l). intros ps. induction ps as [|p ps IH]; [reflexivity|]. exact IH.
Qed.
Print Assumptions C55_unknown.

(** Inverting a table of names gives exactly the inverse relation, and a sensible table for the way back. *)
Theorem C55_inverse : forall m, inverse m (invert_dict m) /\ forall src dest, sensible m src dest -> sensible (invert_dict m) dest src.
Proof. intros m. split; [apply invert_inverse|]. intros src dest. apply sensible_inverse. Qed.
Print Assumptions C55_inverse.

(** There and back: every shape of a layer with an entry is on that layer again. *)
Theorem C55_back : forall shape m src dest (l f : layout shape) out1 out2 q, sensible m src dest -> in_file l ->
  map_gds_layers m src dest l = Some out1 -> reread out1 f -> map_gds_layers (invert_dict m) dest src f = Some out2 ->
  (exists p, sends m src dest q p) -> exists extra, Permutation (shapes_at out2 q) (shapes_at l q ++ extra).
Proof.
  intros shape m src dest l f out1 out2 q S N E1 [Nf Rf] E2 (p & Sp).
  destruct (C55_moved shape m src dest l S N) as (o1 & F1 & G1). rewrite E1 in F1. injection F1 as <-.
  destruct (C55_moved shape _ _ _ f (sensible_inverse _ _ _ S) Nf) as (o2 & F2 & G2). rewrite E2 in F2. injection F2 as <-.
  destruct (G1 p) as (sel1 & A1 & B1). destruct (G2 q) as (sel2 & A2 & B2).
  destruct (chosen_in sel1 l q N) as (x & X); [apply A1; now left|].
  destruct (chosen_in sel2 f p Nf) as (y & Y); [apply A2; left; now apply (sends_back m _ _ _ _ _ (invert_inverse m))|].
  eapply perm_sub; [|rewrite B2; exact Y]. rewrite Rf, B1. exact X.
Qed.
Print Assumptions C55_back.

(** ** the shipped PDKs *)
Fixpoint nodupb {A} `{EqDec A} (l : list A) : bool := match l with [] => true | x :: r => negb (existsb (eqb x) r) && nodupb r end.
Lemma nodupb_ok {A} `{EqDec A} (l : list A) : nodupb l = true -> NoDup l.
Proof.
  induction l as [|x l IH]; [constructor|]. cbn. intros E. apply andb_prop in E. destruct E as [E1 E2]. constructor; [|auto].
  intros J. apply Bool.negb_true_iff in E1. assert (X : existsb (eqb x) l = true) by (apply existsb_exists; exists x; split; [exact J|apply eqb_refl]). congruence.
Qed.
Definition knownb (t : list layer) (n : string) : bool := existsb (fun l => eqb (lpp l) n) t.
Lemma knownb_ok t n : knownb t n = true -> known t n.
Proof. intros E. apply existsb_exists in E. destruct E as (l & J & E). apply (proj1 (eqb_true _ _)) in E. subst. now apply in_map. Qed.
(** The table in the program is sensible for the layer files that come with it: no conversion in either direction fails. *)
Theorem C55_shipped : sensible lpp_mapping sky130A_names sg13g2_names /\ sensible (invert_dict lpp_mapping) sg13g2_names sky130A_names.
Proof.
  assert (S : sensible lpp_mapping sky130A_names sg13g2_names).
  { constructor.
    - apply nodupb_ok. vm_compute. reflexivity.
    - assert (X : forallb (fun e => nodupb (snd e)) lpp_mapping = true) by (vm_compute; reflexivity). rewrite forallb_forall in X.
      intros s ds J. apply nodupb_ok. exact (X _ J).
    - assert (X : forallb (fun e => match snd e with [] => false | _ => true end) lpp_mapping = true) by (vm_compute; reflexivity).
      rewrite forallb_forall in X. intros s ds J. specialize (X _ J). cbn [snd] in X. destruct ds; [discriminate X|discriminate].
    - assert (X : forallb (fun e => knownb sky130A_names (fst e)) lpp_mapping = true) by (vm_compute; reflexivity). rewrite forallb_forall in X.
      intros s ds J. apply knownb_ok. exact (X _ J).
    - assert (X : forallb (fun e => forallb (knownb sg13g2_names) (snd e)) lpp_mapping = true) by (vm_compute; reflexivity). rewrite forallb_forall in X.
      intros s ds d J K. apply knownb_ok. specialize (X _ J). cbn [snd] in X. rewrite forallb_forall in X. exact (X _ K).
    - apply nodupb_ok. vm_compute. reflexivity.
    - apply nodupb_ok. vm_compute. reflexivity. }
  split; [exact S|apply sensible_inverse, S].
Qed.
Print Assumptions C55_shipped.

(** the technology guessed, and the tables used for it *)
Definition table_from (k : nat) : list (string * list string) := if Nat.eqb k 1 then invert_dict lpp_mapping else lpp_mapping.
Definition names_from (k : nat) : list layer := if Nat.eqb k 1 then sg13g2_names else sky130A_names.
Definition names_to (k : nat) : list layer := if Nat.eqb k 1 then sky130A_names else sg13g2_names.
(** Every layout is converted, as [C55_moved] says, from one of the two PDKs to the other; and if all its layers are layers of
    one PDK and not all are layers of the other, from that one. *)
Theorem C55_converted : forall shape (l : layout shape), in_file l -> exists k out, convert l = Some (k, out) /\ (k = 0 \/ k = 1)%nat /\
  (forall k', (k' = 0 \/ k' = 1)%nat -> (forall p, In p (map fst l) -> In p (map l_pair (names_from k'))) ->
     (exists p, In p (map fst l) /\ ~ In p (map l_pair (names_to k'))) -> k = k') /\
  forall p, exists sel, (forall q, sel q = true <-> belongs (table_from k) (names_from k) (names_to k) q p) /\
    Permutation (shapes_at out p) (flat_map (fun e => if sel (fst e) then snd e else []) l).
Proof.
  intros shape l N. destruct C55_shipped as [S0 S1].
  assert (G : guess_technology l tech_layer_lists = if Nat.ltb (rank l sky130A_names) (rank l sg13g2_names) then 1%nat else 0%nat) by reflexivity.
  assert (Q : forall k', (k' = 0 \/ k' = 1)%nat -> (forall p, In p (map fst l) -> In p (map l_pair (names_from k'))) ->
     (exists p, In p (map fst l) /\ ~ In p (map l_pair (names_to k'))) -> (if Nat.ltb (rank l sky130A_names) (rank l sg13g2_names) then 1 else 0)%nat = k').
  { intros k' [->| ->] A (p & J & B); unfold names_from, names_to in *; cbn [Nat.eqb] in *;
      pose proof (rank_all l _ A); pose proof (rank_some l _ p J B).
    - destruct (Nat.ltb_spec (rank l sky130A_names) (rank l sg13g2_names)); lia.
    - destruct (Nat.ltb_spec (rank l sky130A_names) (rank l sg13g2_names)); lia. }
  unfold convert. rewrite G. destruct (Nat.ltb (rank l sky130A_names) (rank l sg13g2_names)) eqn:R.
  - destruct (C55_moved shape _ _ _ l S1 N) as (out & E & P). exists 1%nat, out. split; [|split; [auto|split; [exact Q|exact P]]].
    change (nth 1 tech_layer_lists []) with sg13g2_names. change (Nat.modulo (1 + 1) 2) with 0%nat. change (nth 0 tech_layer_lists []) with sky130A_names.
    change (Nat.eqb 1 1) with true. cbv iota. rewrite E. reflexivity.
  - destruct (C55_moved shape _ _ _ l S0 N) as (out & E & P). exists 0%nat, out. split; [|split; [auto|split; [exact Q|exact P]]].
    change (Nat.modulo (0 + 1) 2) with 1%nat. change (nth 1 tech_layer_lists []) with sg13g2_names. change (nth 0 tech_layer_lists []) with sky130A_names.
    change (Nat.eqb 0 1) with false. cbv iota. rewrite E. reflexivity.
Qed.
Print Assumptions C55_converted.

Definition computed (m : dict string (list string)) (src dest : list layer) : dict pair (list pair) :=
  match dest_layers_by_source_gds_pair m src dest with Some t => map (fun e => (fst e, as_gds_list (snd e))) t | None => [] end.
Definition computed_targets (t : dict pair (list pair)) (q : pair) : list pair := match dget t q with Some l => l | None => [(1000 + fst q, snd q)%Z] end.
Lemma computed_ok m src dest : sensible m src dest -> forall q p, belongs m src dest q p <-> In p (computed_targets (computed m src dest) q).
Proof.
  intros S q p. destruct (table_ok m src dest S) as (table & E & T). destruct (T q) as (_ & _ & B). rewrite <- B.
  unfold computed. rewrite E. unfold targets_of, computed_targets. clear. 
  replace (dget (map (fun e => (fst e, as_gds_list (snd e))) table) q) with (match dget table q with Some ls => Some (as_gds_list ls) | None => None end).
  - destruct (dget table q); reflexivity.
  - induction table as [|[k v] t IH]; [reflexivity|]. cbn [map fst snd dget]. destruct (eq_dec q k); [reflexivity|exact IH].
Qed.
Definition joins_check (C : dict pair (list pair)) (joins joins' : list (pair * pair * pair)) (skip : pair -> bool) : bool :=
  forallb (fun e => let '(b, v, t) := e in
    skip v || forallb (fun b' => forallb (fun v' => forallb (fun t' => existsb (eqb (b', v', t')) joins') (computed_targets C t)) (computed_targets C v))
      (computed_targets C b)) joins.
Lemma joins_general m src dest joins joins' skip : sensible m src dest -> joins_check (computed m src dest) joins joins' skip = true ->
  forall b v t b' v' t', In (b, v, t) joins -> belongs m src dest b b' -> belongs m src dest v v' -> belongs m src dest t t' ->
  skip v = true \/ In (b', v', t') joins'.
Proof.
  intros S X b v t b' v' t' J Jb Jv Jt. apply (proj1 (computed_ok _ _ _ S _ _)) in Jb, Jv, Jt.
  unfold joins_check in X. rewrite forallb_forall in X. specialize (X _ J). cbn beta iota in X. apply Bool.orb_prop in X. destruct X as [X|X]; [left; exact X|right].
  rewrite forallb_forall in X. specialize (X _ Jb). rewrite forallb_forall in X. specialize (X _ Jv). rewrite forallb_forall in X. specialize (X _ Jt).
  apply existsb_exists in X. destruct X as (y & Y & E). apply (proj1 (eqb_true _ _)) in E. rewrite E. exact Y.
Qed.
Definition top_via (v : pair) : bool := eqb v (133, 0)%Z.
Lemma joins_sky : joins_check (computed lpp_mapping sky130A_names sg13g2_names) sky130A_joins sg13g2_joins (fun _ => false) = true.
Proof. vm_compute. reflexivity. Qed.
Lemma joins_ihp : joins_check (computed (invert_dict lpp_mapping) sg13g2_names sky130A_names) sg13g2_joins sky130A_joins top_via = true.
Proof. vm_compute. reflexivity. Qed.
(** Contacts and vias join the same layers after the conversion as before: what joins two layers of one process becomes what
    joins their counterparts in the other (TopVia2 and TopMetal2 of sg13g2 have no counterpart). *)
Theorem C55_joins : forall b v t b' v' t',
  (In (b, v, t) sky130A_joins -> belongs lpp_mapping sky130A_names sg13g2_names b b' ->
   belongs lpp_mapping sky130A_names sg13g2_names v v' -> belongs lpp_mapping sky130A_names sg13g2_names t t' -> In (b', v', t') sg13g2_joins) /\
  (In (b, v, t) sg13g2_joins -> v <> (133, 0)%Z -> belongs (invert_dict lpp_mapping) sg13g2_names sky130A_names b b' ->
   belongs (invert_dict lpp_mapping) sg13g2_names sky130A_names v v' -> belongs (invert_dict lpp_mapping) sg13g2_names sky130A_names t t' ->
   In (b', v', t') sky130A_joins).
Proof.
  intros b v t b' v' t'. split.
  - intros J Jb Jv Jt. destruct (joins_general _ _ _ _ _ (fun _ => false) (proj1 C55_shipped) joins_sky _ _ _ _ _ _ J Jb Jv Jt) as [X|X]; [discriminate X|exact X].
  - intros J N Jb Jv Jt. destruct (joins_general _ _ _ _ _ top_via (proj2 C55_shipped) joins_ihp _ _ _ _ _ _ J Jb Jv Jt) as [X|X]; [|exact X].
    exfalso. apply N. apply (proj1 (eqb_true _ _)) in X. exact X.
Qed.
Print Assumptions C55_joins.

Definition joined (l : list (pair * pair * pair)) : list pair := flat_map (fun e => [fst (fst e); snd (fst e); snd e]) l.
Definition apart_check (C : list (pair * list pair)) (joins : list pair) (ok : pair -> pair -> bool) : bool :=
  forallb (fun q => forallb (fun p => Z.ltb (fst p) 1000 && forallb (fun e => negb (existsb (eqb p) (snd e)) || ok q (fst e)) C) (computed_targets C q)) joins.

Lemma apart_general : forall m src dest (joins : list pair) (ok : pair -> pair -> bool), sensible m src dest ->
  apart_check (computed m src dest) joins ok = true ->
  forall q q' p, In q joins -> (0 <= fst q')%Z -> belongs m src dest q p -> belongs m src dest q' p -> ok q q' = true.
Proof.
  intros m src dest joins ok S X q q' p J Z0 B B'. apply (proj1 (computed_ok _ _ _ S _ _)) in B, B'.
  unfold apart_check in X. rewrite forallb_forall in X. specialize (X _ J). rewrite forallb_forall in X. specialize (X _ B). apply andb_prop in X. destruct X as [X1 X2].
  unfold computed_targets in B'. destruct (dget (computed m src dest) q') as [l|] eqn:E.
  - apply dget_In in E. rewrite forallb_forall in X2. specialize (X2 _ E). cbn [fst snd] in X2. apply Bool.orb_prop in X2. destruct X2 as [X2|X2]; [|exact X2].
    apply Bool.negb_true_iff in X2. assert (Y : existsb (eqb p) l = true) by (apply existsb_exists; exists p; split; [exact B'|apply eqb_refl]).
    assert (F : true = false) by (transitivity (existsb (eqb p) l); [symmetry; exact Y|exact X2]). discriminate F.
  - destruct B' as [<-|[]]. apply Z.ltb_lt in X1. cbn [fst] in X1. lia.
Qed.

Definition ok_sky (q q' : pair) : bool := eqb q q' || (existsb (eqb q) [(65, 20); (65, 44)]%Z && existsb (eqb q') [(65, 20); (65, 44)]%Z).
Definition ihp_apart_layers : list pair := filter (fun q => negb (eqb q (133, 0)%Z || eqb q (134, 0)%Z)) (joined sg13g2_joins).
Definition ok_ihp (q q' : pair) : bool := eqb q q'.
Lemma check_sky : apart_check (computed lpp_mapping sky130A_names sg13g2_names) (joined sky130A_joins) ok_sky = true.
Proof. vm_compute. reflexivity. Qed.
Lemma check_ihp : apart_check (computed (invert_dict lpp_mapping) sg13g2_names sky130A_names) ihp_apart_layers ok_ihp = true.
Proof. vm_compute. reflexivity. Qed.

Lemma apart_sky : forall q q' p,
  In q (joined sky130A_joins) -> (0 <= fst q')%Z -> belongs lpp_mapping sky130A_names sg13g2_names q p ->
  belongs lpp_mapping sky130A_names sg13g2_names q' p -> q = q' \/ (In q [(65, 20); (65, 44)]%Z /\ In q' [(65, 20); (65, 44)]%Z).
Proof.
  intros q q' p J Z0 B B'.
  pose proof (apart_general _ _ _ _ _ (proj1 C55_shipped) check_sky q q' p J Z0 B B') as O. unfold ok_sky in O.
  apply Bool.orb_prop in O. destruct O as [O|O]; [left; apply (proj1 (eqb_true _ _)) in O; exact O|right]. apply andb_prop in O. destruct O as [O1 O2].
  apply existsb_exists in O1, O2. destruct O1 as (x & X1 & X2), O2 as (y & Y1 & Y2). apply (proj1 (eqb_true _ _)) in X2, Y2. rewrite X2, Y2. split; assumption.
Qed.
Lemma apart_ihp : forall q q' p,
  In q (joined sg13g2_joins) -> q <> (133, 0)%Z -> q <> (134, 0)%Z -> (0 <= fst q')%Z -> belongs (invert_dict lpp_mapping) sg13g2_names sky130A_names q p ->
  belongs (invert_dict lpp_mapping) sg13g2_names sky130A_names q' p -> q = q'.
Proof.
  intros q q' p J N1 N2 Z0 B B'.
  assert (J' : In q ihp_apart_layers).
  { apply filter_In. split; [exact J|]. rewrite (proj2 (eqb_false q _) N1), (proj2 (eqb_false q _) N2). reflexivity. }
  pose proof (apart_general _ _ _ _ _ (proj2 C55_shipped) check_ihp q q' p J' Z0 B B') as O. unfold ok_ihp in O.
  apply (proj1 (eqb_true _ _)) in O; exact O.
Qed.

(** No other layer is put on the layer a conductor or cut goes to, so nothing gets connected (sky130A's tap and diff, both
    Activ in sg13g2, are the exception). *)
Theorem C55_apart : forall q q' p,
  (In q (joined sky130A_joins) -> (0 <= fst q')%Z -> belongs lpp_mapping sky130A_names sg13g2_names q p ->
   belongs lpp_mapping sky130A_names sg13g2_names q' p -> q = q' \/ (In q [(65, 20); (65, 44)]%Z /\ In q' [(65, 20); (65, 44)]%Z)) /\
  (In q (joined sg13g2_joins) -> q <> (133, 0)%Z -> q <> (134, 0)%Z -> (0 <= fst q')%Z -> belongs (invert_dict lpp_mapping) sg13g2_names sky130A_names q p ->
   belongs (invert_dict lpp_mapping) sg13g2_names sky130A_names q' p -> q = q').
Proof. intros q q' p. split; [exact (apart_sky q q' p)|exact (apart_ihp q q' p)]. Qed.
Print Assumptions C55_apart.

(** The hypotheses are met. *)
Definition inv_layout : layout nat := [((65, 20), [1; 2]%nat); ((67, 20), [3]%nat); ((67, 5), [4]%nat); ((1, 77), [5]%nat)]%Z.
Example C55_nontrivial : in_file inv_layout /\ convert inv_layout =
  Some (0%nat, [((1, 0), [1; 2]%nat); ((8, 0), [3]%nat); ((8, 2), [4]%nat); ((1001, 77), [5]%nat); ((8, 25), [4]%nat)]%Z) /\
  sends lpp_mapping sky130A_names sg13g2_names (67, 5)%Z (8, 25)%Z.
Proof.
  split; [apply nodupb_ok; vm_compute; reflexivity|]. split; [vm_compute; reflexivity|].
  destruct (proj2 (computed_ok _ _ _ (proj1 C55_shipped) (67, 5)%Z (8, 25)%Z)) as [X|[_ X]]; [vm_compute; auto|exact X|discriminate].
Qed.

(** There and back is not exact: diffusion comes back as tap as well. *)
Theorem C55_back_refuted : exists l f : layout nat, exists out1 out2, in_file l /\
  map_gds_layers lpp_mapping sky130A_names sg13g2_names l = Some out1 /\ reread out1 f /\
  map_gds_layers (invert_dict lpp_mapping) sg13g2_names sky130A_names f = Some out2 /\
  shapes_at l (65, 44)%Z = [] /\ shapes_at out2 (65, 44)%Z = [1%nat].
Proof.
  exists [((65, 20)%Z, [1%nat])], [((1, 0)%Z, [1%nat])]. eexists. eexists. split; [repeat constructor; intros []|].
  split; [vm_compute; reflexivity|]. split; [split; [repeat constructor; intros []|reflexivity]|]. split; [vm_compute; reflexivity|]. split; vm_compute; reflexivity.
Qed.
Print Assumptions C55_back_refuted.
(** A layout of sg13g2 that only has Metal3, Via3 and Metal4 is taken for one of sky130A, and all its shapes go to dummy layers. *)
Theorem C55_guess_refuted : exists l : layout nat, in_file l /\
  map fst l = [(30, 0); (49, 0); (50, 0)]%Z /\ named sg13g2_names "Metal3.drawing" (30, 0)%Z /\ named sg13g2_names "Via3.drawing" (49, 0)%Z /\
  named sg13g2_names "Metal4.drawing" (50, 0)%Z /\
  exists out, convert l = Some (0%nat, out) /\ map fst out = [(1030, 0); (1049, 0); (1050, 0)]%Z.
Proof.
  exists [((30, 0), [1]%nat); ((49, 0), [2]%nat); ((50, 0), [3]%nat)]%Z. split; [apply nodupb_ok; vm_compute; reflexivity|]. split; [reflexivity|].
  assert (K : forall n p, match dget (layer_by_lpp sg13g2_names) n with Some l => eqb (l_pair l) p | None => false end = true -> named sg13g2_names n p).
  { intros n p X. destruct (dget (layer_by_lpp sg13g2_names) n) as [l|] eqn:E; [|discriminate]. apply (proj1 (eqb_true _ _)) in X. subst p. now apply by_lpp_named in E. }
  split; [apply K; vm_compute; reflexivity|]. split; [apply K; vm_compute; reflexivity|]. split; [apply K; vm_compute; reflexivity|].
  eexists. split; [vm_compute; reflexivity|reflexivity].
Qed.
Print Assumptions C55_guess_refuted.

(** ** the program *)
(** With a log level written as in the program's list, an input file and a directory for the output, the converted layout is written. *)
Theorem C55_program : forall shape (d : disk shape) a, In (a_log_level a) log_levels -> a_dump a = false ->
  is_file d (a_input a) = true -> is_dir d (dir_of d (a_input a)) = true -> is_dir d (dir_of d (a_output a)) = true -> in_file (content d (a_input a)) ->
  exists k out, convert (content d (a_input a)) = Some (k, out) /\ main d a = Writes (a_output a) out.
Proof.
  intros shape d a L D F1 F2 F3 N. destruct (C55_converted shape _ N) as (k & out & E & _). exists k, out. split; [exact E|].
  unfold main, setup_logging, validate_args. rewrite E, D, F1, F2, F3. cbn in L.
  repeat (destruct L as [<-|L]; [reflexivity|]). destruct L.
Qed.
Print Assumptions C55_program.
Example C55_program_nontrivial : exists d : disk nat, exists a, In (a_log_level a) log_levels /\ a_dump a = false /\
  is_file d (a_input a) = true /\ is_dir d (dir_of d (a_input a)) = true /\ is_dir d (dir_of d (a_output a)) = true /\ content d (a_input a) = inv_layout.
Proof. exists (Disk nat (fun _ => true) (fun _ => true) (fun _ => "/") (fun _ => inv_layout)), (Args "INFO" false "/a.gds" "/b.gds"). cbn. intuition. Qed.
(** Nothing but the write itself notices that the directory of the output is missing: the arguments pass the check and the
    program ends with an exception after all the work. *)
Theorem C55_output_refuted : exists d : disk nat, exists a, validate_args d a = true /\ is_dir d (dir_of d (a_output a)) = false /\ main d a = Raises.
Proof.
  exists (Disk nat (fun _ => true) (fun p => eqb p "/in") (fun p => if eqb p "/in/a.gds" then "/in" else "/none") (fun _ => [])), (Args "INFO" false "/in/a.gds" "/none/b.gds").
  split; [reflexivity|]. split; [reflexivity|]. vm_compute. reflexivity.
Qed.
Print Assumptions C55_output_refuted.
(** Log levels in small letters, and DEFAULT, pass the check of the arguments but end the program with an exception before it. *)
Theorem C55_log_level_refuted : exists d : disk nat, exists a1 a2, a_log_level a1 = "debug" /\ validate_args d a1 = true /\ main d a1 = Raises /\
  a_log_level a2 = "DEFAULT" /\ validate_args d a2 = true /\ main d a2 = Raises.
Proof.
  exists (Disk nat (fun _ => true) (fun _ => true) (fun _ => "/") (fun _ => [])), (Args "debug" false "/a.gds" "/b.gds"), (Args "DEFAULT" false "/a.gds" "/b.gds").
  repeat split.
Qed.
Print Assumptions C55_log_level_refuted.
