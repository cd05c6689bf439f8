(** C43, C77, C78: LVS databases and their cache, accepted calls, run directories. *)
From Coq Require Import String ZArith Lia.
From Verif Require Import PyBase PyLib UT_Model CL_Model CL_Spec CL_Proofs.
Local Open Scope string_scope.
Local Open Scope list_scope.

(** ** C43: the LVS database that a run uses *)
(** A run that calls LVS uses a database of what the input layout and the schematic were at some moments of this very run,
    whatever happened before it and whatever the user edits meanwhile. *)
Theorem C43_lvs_run : forall e w a g evs db,
  w_run w = None -> a_gds a = Some g -> g <> [] -> (forall p, reads a p -> ~ writes a p) ->
  Forall one_run evs -> (forall p c k, In (Edit p c k) evs -> ~ writes a p) ->
  let ws := during e (step e w (Start a)) evs in
  (forall w1, In w1 ws -> (exists l, data_at w1 g = Some (Gds l)) /\ forall sp, a_schematic a = Some sp -> sp <> [] -> data_at w1 sp <> None) ->
  (a_cache a = false \/ forall w1 c cached gds, In w1 ws -> w_fs w (cache_path a g c) = Some cached -> w_fs w1 g = Some gds -> (f_time cached <= f_time gds)%Z) ->
  w_done (run e w (Start a :: evs)) = (a, Used db) :: w_done w ->
  exists w1 w2 l1 l2 c s, In w1 ws /\ In w2 ws /\ data_at w1 g = Some (Gds l1) /\ data_at w2 g = Some (Gds l2) /\ chosen a l1 c /\
    (if given (a_schematic a) then exists w3 sp, In w3 ws /\ a_schematic a = Some sp /\ data_at w3 sp = Some s else s = Text (dummy_text c)) /\
    db = Lvs (a_pdk a) (if eqb (tops_of l1) [c] then l2 else CellOf l1 c) s.
Proof.
  intros e w a g evs db R G N Sep One Ed ws In_ok NH Dn.
  set (L := fun l => exists w1, In w1 ws /\ data_at w1 g = Some (Gds l)).
  set (S := fun s => exists w3 sp, In w3 ws /\ a_schematic a = Some sp /\ data_at w3 sp = Some s).
  set (C0 := fun c => w_fs w (cache_path a g c)).
  assert (St : step e w (Start a) = World (w_fs w) (w_now w) (Some (a, PValidate)) (w_done w)) by (simpl; rewrite R; reflexivity).
  assert (K : Right a L S db).
  { apply (run_right e a g G N L S C0 evs (step e w (Start a)) PValidate).
    - rewrite St. reflexivity.
    - rewrite St. simpl. intros c. reflexivity.
    - split; assumption.
    - intros w1 I. destruct (In_ok w1 I) as [(l & Dl) Sc]. split; [split|].
      + exists l. split; [exact Dl|]. exists w1. auto.
      + intros sp Q Ns. specialize (Sc sp Q Ns). unfold data_at in Sc. unfold data. destruct (w_fs w1 sp) as [f|] eqn:Fs; [|simpl in Sc; congruence].
        exists (f_data f). split; [reflexivity|]. exists w1, sp. unfold data_at. rewrite Fs. auto.
      + destruct NH as [NH|NH]; [left; exact NH|right]. intros c fc fg. apply (NH w1 c). exact I.
    - replace (w_done (step e w (Start a))) with (w_done w) by (rewrite St; reflexivity). exact Dn. }
  destruct K as (l1 & l2 & c & s & (w1 & I1 & D1) & (w2 & I2 & D2) & Ch & Sn & E).
  exists w1, w2, l1, l2, c, s. do 5 (split; [assumption|]). split; [|exact E]. unfold schematic_seen in Sn. destruct (given (a_schematic a)); [|exact Sn].
  destruct Sn as (w3 & sp & ?). exists w3, sp. assumption.
Qed.
(** The cache: in every orderly history of calls that keep out of each other's way, with any clock and with runs killed at any
    point, a run uses a database of the present layout. *)
Theorem C43_history : forall e (A : args -> Prop) evs ev a g db, apart A -> orderly_all A e genesis (evs ++ [ev]) ->
  let w := run e genesis evs in
  w_done (step e w ev) = (a, Used db) :: w_done w -> a_gds a = Some g -> g <> [] ->
  exists l, data_at w g = Some (Gds l) /\ right_database a l db.
Proof.
  intros e A evs ev a g db Ap O w D G N.
  assert (K : forall evs w0, orderly_all A e w0 (evs ++ [ev]) -> orderly_all A e w0 evs /\ orderly A (run e w0 evs) ev).
  { clear. induction evs as [|x evs IH]; intros w0 O; simpl in *; [tauto|]. destruct O as [O1 O2]. destruct (IH _ O2) as [I1 I2]. auto. }
  destruct (K _ _ O) as [O1 O2]. apply (used_right e A w ev a g db); auto. apply run_keeps; auto. apply hw_genesis.
Qed.
(** The same for the default cache directory, with inputs outside the output directory, no two input files of the same name up
    to the first dot, and one PDK per input file. *)
Theorem C43_default : forall e (A : args -> Prop) out evs ev a g db,
  (forall b, A b -> a_out b = out /\ a_cache_dir b = None) -> (forall b p r, A b -> reads b p -> p <> out ++ r) ->
  (forall b b' h h', A b -> A b' -> a_gds b = Some h -> a_gds b' = Some h' -> stem h = stem h' -> h = h' /\ a_pdk b = a_pdk b') ->
  orderly_all A e genesis (evs ++ [ev]) ->
  let w := run e genesis evs in
  w_done (step e w ev) = (a, Used db) :: w_done w -> a_gds a = Some g -> g <> [] ->
  exists l, data_at w g = Some (Gds l) /\ right_database a l db.
Proof. intros e A out evs ev a g db H1 H2 H3. apply C43_history. exact (default_apart A out H1 H2 H3). Qed.

(** *** cases *)
Definition installed : env := Env true true true.
Definition call (gds : list string) : args :=
  Args "sky130A" ["output"] (Some gds) None None None true None false false false true "info" "all".
Definition kpex (a : args) : list event := Start a :: repeat (Go true) 13.
Definition inv1 : layout := Drawn ["inv"; "nmos"] ["inv"] 1.
Definition inv2 : layout := Drawn ["inv"; "nmos"] ["inv"] 2.
Definition a_gds_file := ["home"; "a"; "inv.gds"].
Definition b_gds_file := ["home"; "b"; "inv.gds"].
Definition outcomes (evs : list event) : list (args * outcome) := w_done (run installed genesis evs).
Definition dummy : content := Text (dummy_text "inv").

(** events other than edits, and edits while no run is active *)
Lemma orderly_rest A e evs : Forall (fun ev => match ev with Edit _ _ _ => False | Start a => A a | Go wrote => wrote = true | _ => True end) evs ->
  forall w, orderly_all A e w evs.
Proof. induction 1 as [|ev evs H _ IH]; intros w; simpl; [exact I|]. split; [destruct ev; simpl in *; auto; contradiction|apply IH]. Qed.
Lemma orderly_app A e evs evs' : forall w, orderly_all A e w evs -> orderly_all A e (run e w evs) evs' -> orderly_all A e w (evs ++ evs').
Proof. induction evs as [|ev evs IH]; intros w O O'; simpl in *; [exact O'|]. destruct O as [O1 O2]. split; [exact O1|]. apply IH; assumption. Qed.
Lemma kpex_rest (A : args -> Prop) a : A a -> Forall (fun ev => match ev with Edit _ _ _ => False | Start a => A a | Go wrote => wrote = true | _ => True end) (kpex a).
Proof. intros H. constructor; [exact H|]. repeat constructor. Qed.
Lemma call_writes gds p : writes (call gds) p -> exists r, p = ["output"] ++ r.
Proof. apply (writes_below (call gds)). reflexivity. Qed.

(** a first run, a second one that finds the cached database, an edit, a run killed in the middle of LVS, and a last one *)
Definition c43_events : list event :=
  [Edit a_gds_file (Some (Gds inv1)) None; Tick 1] ++ kpex (call a_gds_file) ++ kpex (call a_gds_file) ++ [Tick 5] ++
  [Edit a_gds_file (Some (Gds inv2)) None] ++ firstn 8 (kpex (call a_gds_file)) ++ [Kill; Tick 1] ++ kpex (call a_gds_file).
Example C43_case :
  outcomes c43_events = [(call a_gds_file, Used (Lvs "sky130A" inv2 dummy)); (call a_gds_file, Used (Lvs "sky130A" inv1 dummy)); (call a_gds_file, Used (Lvs "sky130A" inv1 dummy))] /\
  (* the second run hit the cache: it was done after 6 steps *)
  List.length (outcomes ([Edit a_gds_file (Some (Gds inv1)) None; Tick 1] ++ kpex (call a_gds_file) ++ firstn 7 (kpex (call a_gds_file)))) = 2%nat.
Proof. split; vm_compute; reflexivity. Qed.
Example C43_case_hypotheses : apart (fun a => a = call a_gds_file) /\ orderly_all (fun a => a = call a_gds_file) installed genesis c43_events.
Proof.
  split.
  - apply (default_apart _ ["output"]).
    + intros a ->. auto.
    + intros a p r -> [[H|H] _]; simpl in H; [injection H as <-; discriminate|discriminate].
    + intros a b g h -> -> G H _. simpl in *. split; congruence.
  - assert (W : forall a, a = call a_gds_file -> ~ writes a a_gds_file) by (intros a -> X; apply call_writes in X as [r X]; discriminate).
    assert (K : forall w c, w_run w = None -> orderly (fun a => a = call a_gds_file) w (Edit a_gds_file c None)).
    { intros w c R. simpl. split; [reflexivity|]. split; [exact W|]. intros a ph Q. congruence. }
    unfold c43_events. apply orderly_app; [split; [apply K; reflexivity|split; exact I]|].
    repeat apply orderly_app; try solve [apply orderly_rest; repeat constructor].
    split; [|exact I]. apply K. vm_compute. reflexivity.
Qed.

(** *** where it fails *)
(** default settings, nothing else wrong: two input files with the same name (up to the first dot) and top cell in different
    directories share their run directory, and the cache hit reads the report of the other one *)
Theorem C43_same_name_refuted : exists e (A : args -> Prop) evs a g l db,
  (forall b, A b -> a_out b = ["output"] /\ a_cache_dir b = None) /\ (forall b p r, A b -> reads b p -> p <> ["output"] ++ r) /\
  orderly_all A e genesis evs /\ a_gds a = Some g /\ data_at (run e genesis evs) g = Some (Gds l) /\
  w_done (run e genesis evs) = (a, Used db) :: tl (w_done (run e genesis evs)) /\ ~ right_database a l db.
Proof.
  exists installed, (fun a => a = call a_gds_file \/ a = call b_gds_file),
    ([Edit a_gds_file (Some (Gds inv1)) None; Edit b_gds_file (Some (Gds inv2)) None; Tick 1] ++ kpex (call a_gds_file) ++ kpex (call b_gds_file) ++ kpex (call a_gds_file)),
    (call a_gds_file), a_gds_file, inv1, (Lvs "sky130A" inv2 dummy).
  assert (W : forall a q, a = call a_gds_file \/ a = call b_gds_file -> hd "" q = "home" -> ~ writes a q).
  { intros a q [->| ->] Q X; apply call_writes in X as [r ->]; discriminate. }
  split; [intros b [->| ->]; auto|]. split; [intros b p r [->| ->] [[H|H] _]; simpl in H; try discriminate; injection H as <-; discriminate|].
  split.
  { apply orderly_app; [|repeat apply orderly_app; apply orderly_rest; apply kpex_rest; auto].
    split; [split; [reflexivity|split; [intros a H; apply W; auto|intros a ph H; discriminate]]|].
    split; [split; [reflexivity|split; [intros a H; apply W; auto|intros a ph H; discriminate]]|]. split; exact I. }
  split; [reflexivity|]. split; [vm_compute; reflexivity|]. split; [vm_compute; reflexivity|].
  intros (c & s & H & E). injection E as E _. unfold chosen in H. simpl in H. injection H as <-. vm_compute in E. discriminate.
Qed.
(** no cache at all: when LVS fails to write its report, the report of an earlier run is used *)
Definition uncached (gds : list string) : args :=
  Args "sky130A" ["output"] (Some gds) None None None false None false false false true "info" "all".
Theorem C43_lvs_failure_refuted : exists e evs a g l db, a_cache a = false /\ a_gds a = Some g /\
  (forall b, In (Start b) evs -> b = a) /\ data_at (run e genesis evs) g = Some (Gds l) /\
  w_done (run e genesis evs) = (a, Used db) :: tl (w_done (run e genesis evs)) /\ ~ right_database a l db.
Proof.
  exists installed, ([Edit a_gds_file (Some (Gds inv1)) None; Tick 1; Start (uncached a_gds_file)] ++ repeat (Go true) 13 ++
    [Edit a_gds_file (Some (Gds inv2)) None; Start (uncached a_gds_file)] ++ repeat (Go false) 13), (uncached a_gds_file), a_gds_file, inv2, (Lvs "sky130A" inv1 dummy).
  split; [reflexivity|]. split; [reflexivity|]. split; [simpl; intros b H; intuition congruence|]. split; [vm_compute; reflexivity|]. split; [vm_compute; reflexivity|].
  intros (c & s & H & E). injection E as E _. unfold chosen in H. simpl in H. injection H as <-. vm_compute in E. discriminate.
Qed.
(** a cache hit for a new output directory: there is no report to read, and the run dies *)
Definition call_to (out cache : string) (sch : option (list string)) : args :=
  Args "sky130A" [out] (Some a_gds_file) sch None None true (Some [cache]) false false false true "info" "all".
Theorem C43_new_output_refuted : exists e evs a, acceptable_gds e a (w_fs (run e genesis evs)) a_gds_file inv1 "inv" /\
  w_run (run e genesis evs) = None /\ (forall n, (7 <= n)%nat -> w_done (run e genesis (evs ++ [Start a] ++ repeat (Go true) n)) = (a, Raised) :: w_done (run e genesis evs)).
Proof.
  exists installed, ([Edit a_gds_file (Some (Gds inv1)) None; Tick 1] ++ kpex (call_to "out1" "cache" None)), (call_to "out2" "cache" None).
  split.
  { unfold acceptable_gds. repeat (split; [try reflexivity; try discriminate|]); [right; right; right; right; left; reflexivity|eexists; reflexivity|right; right; right; reflexivity|]. intros sp H. discriminate. }
  split; [vm_compute; reflexivity|]. intros n Hn. replace n with (7 + (n - 7))%nat by lia. rewrite repeat_app, !app_assoc. unfold run. rewrite fold_left_app. fold (run installed genesis).
  match goal with |- w_done (fold_left _ _ ?u) = _ => set (w := u) end.
  assert (R : w_run w = None) by (vm_compute; reflexivity). assert (D : w_done w = (call_to "out2" "cache" None, Raised) :: w_done (run installed genesis ([Edit a_gds_file (Some (Gds inv1)) None; Tick 1] ++ kpex (call_to "out1" "cache" None)))) by (vm_compute; reflexivity).
  assert (Fo : Forall one_run (repeat (Go true) (n - 7))) by (clear; induction (n - 7)%nat; simpl; constructor; simpl; auto).
  destruct (idle_done installed _ w R Fo) as [_ Q]. unfold run in Q. rewrite Q. exact D.
Qed.
(** the layout is saved while LVS is running: the cached report is newer, and later runs go on using it *)
Theorem C43_edit_during_lvs_refuted : exists e evs a g l db, a_gds a = Some g /\ (forall b, In (Start b) evs -> b = a) /\ ~ In (Go false) evs /\ ~ In Kill evs /\
  (forall p c t, ~ In (Edit p c (Some t)) evs) /\ data_at (run e genesis evs) g = Some (Gds l) /\
  w_done (run e genesis evs) = (a, Used db) :: tl (w_done (run e genesis evs)) /\ ~ right_database a l db /\
  (* and that was a run of its own, started with the new layout in place *)
  (exists evs1, evs = evs1 ++ [Start a] ++ repeat (Go true) 13 /\ data_at (run e genesis evs1) g = Some (Gds l) /\ w_run (run e genesis evs1) = None).
Proof.
  exists installed, (([Edit a_gds_file (Some (Gds inv1)) None; Tick 1; Start (call a_gds_file)] ++ repeat (Go true) 6 ++
    [Edit a_gds_file (Some (Gds inv2)) None; Tick 1] ++ repeat (Go true) 7) ++ [Start (call a_gds_file)] ++ repeat (Go true) 13), (call a_gds_file), a_gds_file, inv2, (Lvs "sky130A" inv1 dummy).
  split; [reflexivity|]. split; [simpl; intros b H; intuition congruence|]. split; [simpl; intuition congruence|]. split; [simpl; intuition congruence|].
  split; [simpl; intros p c t H; intuition congruence|]. split; [vm_compute; reflexivity|]. split; [vm_compute; reflexivity|]. split.
  - intros (c & s & H & E). injection E as E _. unfold chosen in H. simpl in H. injection H as <-. vm_compute in E. discriminate.
  - eexists. split; [reflexivity|]. split; vm_compute; reflexivity.
Qed.
(** the layout is replaced by one that keeps an older modification time (cp -p, tar, rsync): the old report is used *)
Theorem C43_kept_time_refuted : exists e evs a g l db, a_gds a = Some g /\ (forall b, In (Start b) evs -> b = a) /\ ~ In (Go false) evs /\
  data_at (run e genesis evs) g = Some (Gds l) /\ w_done (run e genesis evs) = (a, Used db) :: tl (w_done (run e genesis evs)) /\ ~ right_database a l db /\
  (exists evs1, evs = evs1 ++ [Start a] ++ repeat (Go true) 13 /\ data_at (run e genesis evs1) g = Some (Gds l) /\ w_run (run e genesis evs1) = None).
Proof.
  exists installed, (([Edit a_gds_file (Some (Gds inv1)) None; Tick 10] ++ kpex (call a_gds_file) ++ [Tick 10; Edit a_gds_file (Some (Gds inv2)) (Some 5%Z)]) ++ [Start (call a_gds_file)] ++ repeat (Go true) 13), (call a_gds_file), a_gds_file, inv2, (Lvs "sky130A" inv1 dummy).
  split; [reflexivity|]. split; [simpl; intros b H; intuition congruence|]. split; [simpl; intuition congruence|].
  split; [vm_compute; reflexivity|]. split; [vm_compute; reflexivity|]. split.
  - intros (c & s & H & E). injection E as E _. unfold chosen in H. simpl in H. injection H as <-. vm_compute in E. discriminate.
  - eexists. split; [reflexivity|]. split; vm_compute; reflexivity.
Qed.
(** the schematic is not looked at: after editing it, the report of the old one is used *)
Theorem C43_schematic_refuted : exists e evs a sp old new db, a_schematic a = Some sp /\ (forall b, In (Start b) evs -> b = a) /\ ~ In (Go false) evs /\
  (exists evs1, evs = evs1 ++ [Start a] ++ repeat (Go true) 13 /\ data_at (run e genesis evs1) sp = Some (Text new) /\ w_run (run e genesis evs1) = None) /\
  w_done (run e genesis evs) = (a, Used db) :: tl (w_done (run e genesis evs)) /\ db = Lvs (a_pdk a) inv1 (Text old) /\ old <> new.
Proof.
  pose (sp := ["home"; "inv.spice"]). pose (a := Args "sky130A" ["output"] (Some a_gds_file) (Some sp) None None true None false false false true "info" "all").
  exists installed, (([Edit a_gds_file (Some (Gds inv1)) None; Edit sp (Some (Text "old")) None; Tick 1] ++ kpex a ++ [Tick 1; Edit sp (Some (Text "new")) None]) ++ [Start a] ++ repeat (Go true) 13),
    a, sp, "old", "new", (Lvs "sky130A" inv1 (Text "old")).
  split; [reflexivity|]. split; [simpl; intros b H; intuition congruence|]. split; [simpl; intuition congruence|].
  split; [eexists; split; [reflexivity|]; split; vm_compute; reflexivity|]. split; [vm_compute; reflexivity|]. split; [reflexivity|discriminate].
Qed.

(** ** C77: which calls are accepted *)
(** An acceptable call whose cached database is not newer than the layout finishes, and uses LVS of the chosen cell with the
    user's schematic or the dummy one; if only Magic is asked for, LVS is not run. *)
Theorem C77_accepts : forall e w a g l c n, w_run w = None -> acceptable_gds e a (w_fs w) g l c -> (forall p, reads a p -> ~ writes a p) ->
  (a_cache a = false \/ forall d cached gds, w_fs w (cache_path a g d) = Some cached -> w_fs w g = Some gds -> (f_time cached <= f_time gds)%Z) ->
  (13 <= n)%nat ->
  let final := run e w (Start a :: repeat (Go true) n) in
  (only_magic a -> w_done final = (a, NoLvs) :: w_done w) /\
  (~ only_magic a -> exists s, w_done final = (a, Used (Lvs (a_pdk a) (only_cell l c) s)) :: w_done w /\
     match a_schematic a with Some (x :: r) => data_at w (x :: r) = Some s | _ => s = Text (dummy_text c) end).
Proof.
  intros e w a g l c n R Acc Sep NH Hn final. pose proof Acc as (_ & _ & _ & _ & _ & _ & G & N & Dg & Ch & Sc).
  destruct (proj1 (validate_gds_iff e a (w_fs w) g G N) l c Acc) as (pl & V & Er).
  set (L := fun x => x = l). set (S := fun s => exists sp, a_schematic a = Some sp /\ data_at w sp = Some s). set (C0 := fun d => w_fs w (cache_path a g d)).
  assert (St : step e w (Start a) = World (w_fs w) (w_now w) (Some (a, PValidate)) (w_done w)) by (simpl; rewrite R; reflexivity).
  assert (Fi : exists o, w_done final = (a, o) :: w_done w /\ ((o = NoLvs /\ only_magic a) \/ exists db, o = Used db /\ Right a L S db /\ ~ only_magic a)).
  { unfold final. change (run e w (Start a :: repeat (Go true) n)) with (run e (step e w (Start a)) (repeat (Go true) n)). rewrite St.
    apply (run_finishes e a g G N Sep L S C0 n (World (w_fs w) (w_now w) (Some (a, PValidate)) (w_done w)) PValidate); auto; simpl.
    - intros d. reflexivity.
    - split; [exists l; split; [exact Dg|reflexivity]|]. intros sp Q Ns. specialize (Sc sp Q Ns). unfold data. destruct (w_fs w sp) as [f|] eqn:Fs; [|congruence].
      exists (f_data f). split; [reflexivity|]. exists sp. unfold data_at. rewrite Fs. auto.
    - split; [exists pl; auto|]. simpl. lia. }
  destruct Fi as (o & Dn & [(-> & M)|(db & -> & (l1 & l2 & c' & s & -> & -> & Ch' & Sn & ->) & M)]).
  - split; [auto|]. intros X. contradiction.
  - split; [intros X; contradiction|]. intros _. exists s. rewrite Dn.
    assert (c' = c) as ->.
    { unfold chosen in Ch, Ch'. destruct (a_cell a) as [[|x r]|]; [congruence|destruct Ch as [-> _], Ch' as [-> _]; reflexivity|congruence]. }
    split; [reflexivity|]. unfold schematic_seen in Sn. destruct (a_schematic a) as [[|x r]|]; simpl in Sn; try exact Sn.
    destruct Sn as (sp & Q & D). injection Q as <-. exact D.
Qed.
(** A call with an input layout that is not acceptable never runs LVS or any engine, and touches no file but the exported cell
    and the dummy schematic of its own run directory; whatever the steps of LVS would do. *)
Theorem C77_rejects : forall e w a g n wr, w_run w = None -> a_gds a = Some g -> g <> [] -> (forall l c, ~ acceptable_gds e a (w_fs w) g l c) ->
  let final := run e w (Start a :: repeat (Go wr) n) in
  (forall q, (forall c, q <> export_path a g c /\ q <> dummy_path a g c) -> w_fs final q = w_fs w q) /\
  (w_done final = w_done w \/ w_done final = (a, Rejected) :: w_done w \/ w_done final = (a, Raised) :: w_done w).
Proof.
  intros e w a g n wr R G N Bad final.
  assert (St : step e w (Start a) = World (w_fs w) (w_now w) (Some (a, PValidate)) (w_done w)) by (simpl; rewrite R; reflexivity).
  unfold final. change (run e w (Start a :: repeat (Go wr) n)) with (run e (step e w (Start a)) (repeat (Go wr) n)). rewrite St.
  destruct (refused_run e a g (w_fs w) G N Bad n wr (World (w_fs w) (w_now w) (Some (a, PValidate)) (w_done w)) PValidate) as [K1 K2]; simpl; auto.
  - intros q _. reflexivity.
  - split; [exact K1|]. destruct K2 as [K2|(o & K2 & [->| ->])]; auto.
Qed.
(** With an LVS database as input, that database is used as it is, and no file is touched. *)
Theorem C77_lvsdb : forall e w a d p l s t n wr, w_run w = None -> e_klayout e = true -> e_tech e = true -> e_script e = true ->
  In (casefold (a_log_level a)) log_levels -> (exists ch, parse_choice (a_diel a) = Some ch) ->
  a_gds a = None -> a_magic a = false -> ~ only_magic a -> a_lvsdb a = Some d -> d <> [] -> w_fs w d = Some (File (Lvs p l s) t) -> (4 <= n)%nat ->
  run e w (Start a :: repeat (Go wr) n) = World (w_fs w) (w_now w) None ((a, Used (Lvs p l s)) :: w_done w).
Proof.
  intros e w a d p l s t n wr R K1 K2 K3 K4 K5 G M OM D N F Hn.
  replace n with (4 + (n - 4))%nat by lia. set (m := (n - 4)%nat).
  assert (E1 : engine_errors a = false).
  { unfold engine_errors. rewrite M, G, D. unfold only_magic in OM. destruct (a_fastcap a), (a_fastercap a), (a_25d a); try reflexivity. exfalso. auto. }
  assert (E2 : (a_fastcap a || a_fastercap a || a_25d a) = true).
  { unfold only_magic in OM. destruct (a_fastcap a), (a_fastercap a), (a_25d a); try reflexivity. exfalso. auto. }
  assert (V : validate e a (w_fs w) = VPlan (Plan None d (hd "" (tops_of l)) l false [] false false)).
  { unfold validate. rewrite G, D. simpl given. cbv iota. destruct d as [|x d]; [congruence|]. simpl isfile. rewrite F. simpl negb. cbv iota.
    rewrite K1, K2, K3, E1. rewrite (proj2 (log_level_ok_In a) K4), (proj2 (diel_ok_Some a) K5). reflexivity. }
  assert (R4 : run e w (Start a :: repeat (Go wr) 4) = World (w_fs w) (w_now w) None ((a, Used (Lvs p l s)) :: w_done w)).
  { unfold run. cbn [repeat fold_left]. set (pl := Plan None d (hd "" (tops_of l)) l false [] false false) in *.
    assert (step e w (Start a) = World (w_fs w) (w_now w) (Some (a, PValidate)) (w_done w)) as -> by (simpl; rewrite R; reflexivity).
    assert (step e (World (w_fs w) (w_now w) (Some (a, PValidate)) (w_done w)) (Go wr) = World (w_fs w) (w_now w) (Some (a, PDummy pl)) (w_done w)) as -> by (cbn [step w_run w_fs w_now w_done go]; rewrite V; reflexivity).
    assert (step e (World (w_fs w) (w_now w) (Some (a, PDummy pl)) (w_done w)) (Go wr) = World (w_fs w) (w_now w) (Some (a, PDecide pl)) (w_done w)) as -> by reflexivity.
    assert (step e (World (w_fs w) (w_now w) (Some (a, PDecide pl)) (w_done w)) (Go wr) = World (w_fs w) (w_now w) (Some (a, PRead pl)) (w_done w)) as -> by (cbn [step w_run w_fs w_now w_done go]; rewrite E2; reflexivity).
    cbn [step w_run w_fs w_now w_done go]. unfold read_path. cbn [pl pl_gds pl_input]. rewrite F. reflexivity. }
  rewrite repeat_app. change (Start a :: repeat (Go wr) 4 ++ repeat (Go wr) m) with ((Start a :: repeat (Go wr) 4) ++ repeat (Go wr) m).
  unfold run in *. rewrite fold_left_app, R4. clear. induction m; simpl; auto.
Qed.
(** A call whose input file does not exist, or without any input, is rejected, whatever else it asks for; no file is touched. *)
Theorem C77_missing : forall e w a n wr, w_run w = None -> (1 <= n)%nat ->
  match a_gds a, a_lvsdb a with
  | Some g, _ => g <> [] /\ w_fs w g = None
  | None, Some d => d <> [] /\ w_fs w d = None
  | None, None => True
  end ->
  run e w (Start a :: repeat (Go wr) n) = World (w_fs w) (w_now w) None ((a, Rejected) :: w_done w).
Proof.
  intros e w a n wr R Hn H. destruct n as [|n]; [lia|]. cbn [repeat].
  assert (V : validate e a (w_fs w) = VRejected).
  { unfold validate. destruct (a_gds a) as [g|] eqn:G.
    - destruct H as [N F]. destruct g as [|x g]; [congruence|]. cbn [given isfile]. rewrite F. reflexivity.
    - cbn [given]. destruct (a_lvsdb a) as [d|] eqn:D.
      + destruct H as [N F]. destruct d as [|x d]; [congruence|]. cbn [isfile]. rewrite F. reflexivity.
      + assert (E : engine_errors a = true). { unfold engine_errors. rewrite G, D. destruct (a_magic a), (a_fastcap a), (a_fastercap a), (a_25d a); reflexivity. }
        rewrite E, Bool.orb_true_r. reflexivity. }
  unfold run. cbn [fold_left step]. rewrite R. cbn [w_run w_fs w_now w_done go]. rewrite V. clear. induction n; simpl; auto.
Qed.
(** Magic is only run on a layout: with an LVS database as the only input the call is rejected. *)
Theorem C77_magic_needs_layout : forall e w a d p l s t n wr, w_run w = None -> (3 <= n)%nat ->
  a_gds a = None -> a_lvsdb a = Some d -> d <> [] -> w_fs w d = Some (File (Lvs p l s) t) -> a_magic a = true ->
  run e w (Start a :: repeat (Go wr) n) = World (w_fs w) (w_now w) None ((a, Rejected) :: w_done w).
Proof.
  intros e w a d p l s t n wr R Hn G D N F M. destruct n as [|[|[|n]]]; try lia. cbn [repeat].
  assert (V : validate e a (w_fs w) = VPlan (Plan None d (hd "" (tops_of l)) l false [] false true)).
  { unfold validate. rewrite G, D. cbn [given]. destruct d as [|x d]; [congruence|]. cbn [isfile]. rewrite F. cbn [negb].
    assert (E : engine_errors a = true) by (unfold engine_errors; rewrite M, G; reflexivity).
    rewrite E, Bool.orb_true_r. reflexivity. }
  unfold run. cbn [fold_left step]. rewrite R. cbn [w_run w_fs w_now w_done go]. rewrite V.
  cbn [pl_export pl_dummy pl_errors step w_run w_fs w_now w_done go]. clear. induction n; simpl; auto.
Qed.
(** A cell name that the layout does not contain is reported, but then the run dies from an unrelated exception instead of
    being rejected (L389: there is no cell to write). *)
Theorem C77_unknown_cell_refuted : forall e w a g l c n wr, w_run w = None -> a_gds a = Some g -> g <> [] -> data_at w g = Some (Gds l) ->
  a_cell a = Some c -> c <> "" -> ~ In c (cells_of l) -> tops_of l <> [c] -> (1 <= n)%nat ->
  w_done (run e w (Start a :: repeat (Go wr) n)) = (a, Raised) :: w_done w.
Proof.
  intros e w a g l c n wr R G N D C Nc NI NT Hn. destruct n as [|n]; [lia|]. cbn [repeat].
  assert (V : validate e a (w_fs w) = VRaised).
  { unfold validate. rewrite G. destruct g as [|x g]; [congruence|]. simpl given. cbv iota. unfold data_at in D. simpl isfile.
    destruct (w_fs w (x :: g)) as [[dd t]|]; [|discriminate]. simpl in D. injection D as ->. simpl negb. cbv iota. rewrite C. destruct c as [|y r]; [congruence|].
    rewrite (proj2 (eqb_false _ _) NT). destruct (mem (String y r) (cells_of l)) eqn:Q; [|reflexivity]. apply mem_In in Q. contradiction. }
  unfold run. cbn [fold_left step]. rewrite R. cbn [w_run w_fs w_now w_done go]. rewrite V. clear. induction n; simpl; auto.
Qed.
(** [--gds ''] without a database passes the checks and dies later *)
Theorem C77_empty_gds_refuted : exists e w a, w_run w = None /\ a_gds a = Some [] /\ a_lvsdb a = None /\
  (forall n wr, (1 <= n)%nat -> w_done (run e w (Start a :: repeat (Go wr) n)) = (a, Raised) :: w_done w).
Proof.
  exists installed, genesis, (Args "sky130A" ["output"] (Some []) None None None true None false false false true "info" "all").
  split; [reflexivity|]. split; [reflexivity|]. split; [reflexivity|]. intros [|n] wr Hn; [lia|]. cbn [repeat]. unfold run. cbn [fold_left step genesis w_run w_fs w_now w_done].
  match goal with |- context [go ?e ?a PValidate ?wr ?F ?now] => assert (go e a PValidate wr F now = (F, inr Raised)) as -> by (vm_compute; reflexivity) end.
  clear. induction n; simpl; auto.
Qed.

(** *** cases *)
(** a sub cell of a layout with two top cells, for two engines, with a schematic; a broken dielectric filter; an LVS database *)
Definition two_tops : layout := Drawn ["top1"; "top2"; "nmos"] ["top1"; "top2"] 7.
Definition lib_file := ["home"; "lib.gds.gz"].
Definition sch_file := ["home"; "nmos.spice"].
Definition call_cell (c : option string) (diel : string) : args :=
  Args "ihp_sg13g2" ["output"] (Some lib_file) (Some sch_file) None c true None true false true false "Debug" diel.
Definition lib_world : world := run installed genesis [Edit lib_file (Some (Gds two_tops)) None; Edit sch_file (Some (Text "* sch")) None].
Example C77_case :
  acceptable_gds installed (call_cell (Some "nmos") "all") (w_fs lib_world) lib_file two_tops "nmos" /\ w_run lib_world = None /\
  (forall p, reads (call_cell (Some "nmos") "all") p -> ~ writes (call_cell (Some "nmos") "all") p) /\
  (forall d, w_fs lib_world (cache_path (call_cell (Some "nmos") "all") lib_file d) = None) /\
  w_done (run installed lib_world (kpex (call_cell (Some "nmos") "all"))) = [(call_cell (Some "nmos") "all", Used (Lvs "ihp_sg13g2" (CellOf two_tops "nmos") (Text "* sch")))] /\
  w_done (run installed lib_world (kpex (call_cell (Some "nmos") "all,none"))) = [(call_cell (Some "nmos") "all,none", Rejected)] /\
  w_done (run installed lib_world (kpex (call_cell None "all"))) = [(call_cell None "all", Rejected)] /\
  w_done (run installed lib_world (kpex (call_cell (Some "pmos") "all"))) = [(call_cell (Some "pmos") "all", Raised)].
Proof.
  split.
  { unfold acceptable_gds. repeat (split; [try reflexivity; try discriminate|]); [right; left; reflexivity|eexists; reflexivity|left; reflexivity|simpl; auto|].
    intros sp H _. injection H as <-. vm_compute. discriminate. }
  split; [reflexivity|]. split.
  { intros p [[H|H] _] W; apply writes_below in W as [r ->]; try reflexivity; discriminate. }
  split; [intros d; unfold cache_path; reflexivity|]. repeat split; vm_compute; reflexivity.
Qed.
Definition call_db (d : list string) : args := Args "sky130A" ["output"] None None (Some d) None true None false true false false "info" "none".
Example C77_lvsdb_case :
  let w := run installed genesis [Edit ["inv.lvsdb"] (Some (Lvs "sky130A" inv1 dummy)) None] in
  w_fs w ["inv.lvsdb"] = Some (File (Lvs "sky130A" inv1 dummy) 0) /\ ~ only_magic (call_db ["inv.lvsdb"]) /\ (exists ch, parse_choice "none" = Some ch) /\
  w_done (run installed w (kpex (call_db ["inv.lvsdb"]))) = [(call_db ["inv.lvsdb"], Used (Lvs "sky130A" inv1 dummy))].
Proof. split; [reflexivity|]. split; [intros (H & _); discriminate|]. split; [eexists; reflexivity|vm_compute; reflexivity]. Qed.

(** ** C78: run directories *)
(** Calls with the same output directory use the same run directory only for the same input name (up to the first dot) and the
    same cell, as long as those names have no double underscore and do not end in one. *)
Theorem C78_partial : forall a b g h c d, a_out a = a_out b -> plain (stem g) = true -> plain (stem h) = true ->
  run_dir a g c = run_dir b h d -> stem g = stem h /\ c = d.
Proof. intros a b g h c d O P Q E. unfold run_dir in E. apply app_inj_tail in E as [_ E]. exact (plain_run_dir _ _ _ _ P Q E). Qed.
(** in general they do not: two designs with different names and cells overwrite each other's results *)
Theorem C78_refuted : exists a g h c d, run_dir a g c = run_dir a h d /\ stem g <> stem h /\ c <> d.
Proof. exists (call a_gds_file), ["home"; "a__b.gds"], ["home"; "a.gds"], "c", "b__c". repeat split; try (vm_compute; congruence). Qed.
(** and two versions of a design share one directory *)
Theorem C78_versions_refuted : exists a g h c, g <> h /\ removelast g = removelast h /\ run_dir a g c = run_dir a h c.
Proof. exists (call a_gds_file), ["home"; "inv.v1.gds"], ["home"; "inv.v2.gds"], "inv". repeat split; try (vm_compute; congruence). Qed.
Example C78_case : plain (stem ["home"; "sky130_fd_sc_hd__inv.gds"]) = false /\ plain (stem ["home"; "my_inv_1.gds.gz"]) = true /\
  run_dir (call a_gds_file) ["home"; "my_inv_1.gds.gz"] "inv_1" = ["output"; "my_inv_1__inv_1"].
Proof. repeat split; vm_compute; reflexivity. Qed.

Print Assumptions C43_lvs_run.
Print Assumptions C43_history.
Print Assumptions C43_default.
Print Assumptions C43_same_name_refuted.
Print Assumptions C43_lvs_failure_refuted.
Print Assumptions C43_new_output_refuted.
Print Assumptions C43_edit_during_lvs_refuted.
Print Assumptions C43_kept_time_refuted.
Print Assumptions C43_schematic_refuted.
Print Assumptions C77_accepts.
Print Assumptions C77_rejects.
Print Assumptions C77_lvsdb.
Print Assumptions C77_missing.
Print Assumptions C77_magic_needs_layout.
Print Assumptions C77_unknown_cell_refuted.
Print Assumptions C77_empty_gds_refuted.
Print Assumptions C78_partial.
Print Assumptions C78_refuted.
Print Assumptions C78_versions_refuted.
