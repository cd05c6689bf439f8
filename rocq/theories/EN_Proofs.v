(** Proofs about the engines of a run. *)
From Coq Require Import String.
From Verif Require Import PyBase PyLib EN_Model EN_Spec.
Local Open Scope string_scope.
Local Open Scope list_scope.

Lemma append_inj_r c s t : (c ++ s)%string = (c ++ t)%string -> s = t.
Proof. induction c as [|x c IH]; cbn; intros E; [exact E|]. injection E as E. exact (IH E). Qed.

Lemma at_join c p n : at_dir c (join1 p n) = at_dir c p ++ [n].
Proof. destruct p; cbn; [reflexivity|]. rewrite app_assoc. reflexivity. Qed.

Lemma dirname_join p n : dirname (join1 p n) = p.
Proof. destruct p as [l|l]; cbn; rewrite removelast_last; reflexivity. Qed.

Lemma basename_join p n : basename (join1 p n) = n.
Proof. destruct p as [l|l]; cbn; rewrite last_last; reflexivity. Qed.

Section Proofs.
Context {data matrix : Type}.
Variable T : @tools data matrix.

Fixpoint puts (o : list string) (c : string) (l : list (string * data)) (fs : dict (list string) data) : dict (list string) data :=
  match l with [] => fs | (s, d) :: l => puts o c l (dset fs (o ++ [(c ++ s)%string]) d) end.

Lemma puts_app o c l1 l2 fs : puts o c (l1 ++ l2) fs = puts o c l2 (puts o c l1 fs).
Proof. revert fs. induction l1 as [|[s d] l1 IH]; intros fs; cbn; [reflexivity|]. apply IH. Qed.

Lemma name_inj (o : list string) c s t : o ++ [(c ++ s)%string] = o ++ [(c ++ t)%string] -> s = t.
Proof. intros E. apply app_inv_head in E. injection E as E. exact (append_inj_r _ _ _ E). Qed.

Lemma puts_other o c l fs p : (forall s, In s (map fst l) -> p <> o ++ [(c ++ s)%string]) -> dget (puts o c l fs) p = dget fs p.
Proof.
  revert fs. induction l as [|[s d] l IH]; intros fs H; cbn; [reflexivity|].
  rewrite IH by (intros t Ht; apply H; right; exact Ht). apply dget_dset_other. apply H. left. reflexivity.
Qed.

Lemma puts_in o c l fs s d : NoDup (map fst l) -> In (s, d) l -> dget (puts o c l fs) (o ++ [(c ++ s)%string]) = Some d.
Proof.
  revert fs. induction l as [|[t e] l IH]; intros fs W H; [destruct H|]. cbn in W. inversion W as [|? ? N W1]; subst.
  cbn. destruct H as [E|H].
  - injection E as -> ->. rewrite puts_other; [apply dget_dset_same|].
    intros u Hu E. apply name_inj in E. subst. exact (N Hu).
  - apply IH; assumption.
Qed.

Lemma name_not_list o c s : o ++ ["FasterCap_Input_Files"; "FasterCap_Input_.lst"] <> o ++ [(c ++ s)%string].
Proof. intros E. apply app_inv_head in E. discriminate. Qed.

(** * One engine at a time *)
Definition lst_of (a : args) : path := join1 (join1 (out a) "FasterCap_Input_Files") "FasterCap_Input_.lst".

Lemma lst_at a (w : @world data) : at_dir (cwd w) (lst_of a) = list_file a w.
Proof. unfold lst_of, list_file, out_dir. rewrite ?at_join, <- app_assoc. reflexivity. Qed.

Lemma faster_ok a m w :
  fastercap_gives T m -> dget (files w) (list_file a w) = Some (lst_data T) ->
  run_fastercap_extraction T a (lst_of a) w = (World (cwd w) (puts (out_dir a w) (cell a) (fastercap_files T m) (files w)), Some tt).
Proof.
  intros [G P] L. unfold run_fastercap_extraction, bind at 1, run_fastercap. rewrite lst_at, L.
  unfold fastercap_log in P. unfold fastercap_files, fastercap_log. destruct (fastercap T (Some (lst_data T))) as [log ok]. cbn in G, P. subst ok.
  unfold bind, write, read, parsed, named, ret. cbn [cwd files fst]. rewrite ?at_join, dget_dset_same, P. cbn [cwd files].
  rewrite ?at_join, dget_dset_same. cbn [cwd files puts]. rewrite ?at_join. reflexivity.
Qed.

Lemma faster_fail a w :
  snd (fastercap T (Some (lst_data T))) = false \/ parse_fastercap T (fastercap_log T) = None ->
  dget (files w) (list_file a w) = Some (lst_data T) ->
  run_fastercap_extraction T a (lst_of a) w =
    (World (cwd w) (puts (out_dir a w) (cell a) [("_FasterCap_Output.txt", fastercap_log T)] (files w)), None).
Proof.
  intros G L. unfold run_fastercap_extraction, bind at 1, run_fastercap. rewrite lst_at, L.
  unfold fastercap_log in *. destruct (fastercap T (Some (lst_data T))) as [log ok]. cbn in G |- *.
  unfold bind, write, read, parsed, named, ret, raise. cbn [cwd files fst]. rewrite ?at_join. destruct ok; [|reflexivity].
  cbn [cwd files]. rewrite ?at_join, dget_dset_same. destruct G as [G|G]; [discriminate|]. rewrite G. reflexivity.
Qed.

Lemma fast_ok a m w :
  absolute (out a) -> fastcap_gives T m -> dget (files w) (list_file a w) = Some (lst_data T) ->
  run_fastcap_extraction T a (lst_of a) w =
    (World (out_dir a w ++ ["FasterCap_Input_Files"]) (puts (out_dir a w) (cell a) (fastcap_files T m) (files w)), Some tt).
Proof.
  intros A [G P] L. unfold run_fastcap_extraction, run_fastcap, lst_of. rewrite dirname_join, basename_join.
  unfold bind, abspath, chdir, write, read, parsed, named, ret, raise. cbn [cwd files at_dir]. rewrite ?at_join.
  unfold list_file, out_dir in *. rewrite <- app_assoc. cbn [app]. rewrite L. unfold fastcap_log in P. unfold fastcap_files, fastcap_log.
  destruct (fastcap T (Some (lst_data T))) as [log ok]. cbn in G, P. subst ok. cbn [cwd files fst at_dir].
  destruct (out a) as [o|o]; [|destruct A]. cbn [at_dir join1 cwd files]. rewrite dget_dset_same, P. cbn [cwd files puts]. reflexivity.
Qed.

(** the log of a solver that fails is there also for a relative output directory *)
Lemma fast_fail a w :
  dget (files w) (list_file a w) = Some (lst_data T) ->
  snd (fastcap T (Some (lst_data T))) = false \/ (absolute (out a) /\ parse_fastcap T (fastcap_log T) = None) \/
    (exists o, out a = Rel o /\ o <> [] /\
       dget (files w) (out_dir a w ++ ["FasterCap_Input_Files"] ++ o ++ [(cell a ++ "_FastCap2_Output.txt")%string]) = None) ->
  run_fastcap_extraction T a (lst_of a) w =
    (World (out_dir a w ++ ["FasterCap_Input_Files"]) (puts (out_dir a w) (cell a) [("_FastCap2_Output.txt", fastcap_log T)] (files w)), None).
Proof.
  intros L G. unfold run_fastcap_extraction, run_fastcap, lst_of. rewrite dirname_join, basename_join.
  unfold bind, abspath, chdir, write, read, parsed, named, ret, raise. cbn [cwd files at_dir]. rewrite ?at_join.
  unfold list_file, out_dir in *. rewrite <- app_assoc. cbn [app]. rewrite L. unfold fastcap_log in *.
  destruct (fastcap T (Some (lst_data T))) as [log ok]. cbn in G. cbn [cwd files fst at_dir puts].
  destruct ok; [|reflexivity]. destruct G as [G|[[A P]|(o & E & No & N)]]; [discriminate| |].
  - destruct (out a) as [o|o]; [|destruct A]. cbn [at_dir join1 cwd files]. rewrite dget_dset_same, P. reflexivity.
  - rewrite E in *. cbn [at_dir join1 cwd files] in *. rewrite dget_dset_other.
    + rewrite <- !app_assoc in *. cbn [app] in *. rewrite N. reflexivity.
    + intros H. apply (f_equal (@List.length string)) in H. rewrite ?app_length in H. cbn in H.
      rewrite ?app_length in H. cbn in H. destruct o; [destruct (No eq_refl)|cbn in H; lia].
Qed.

Lemma rcx_ok a w :
  (if run_25d a then
    let report_path := named a "_k25d_pex_report.rdb.gz" in
    bind (abspath (named a "_k25d_pex_netlist.csv")) (fun netlist_csv_path =>
    bind (abspath (named a "_k25d_pex_netlist.spice")) (fun netlist_spice_path =>
    run_kpex_2_5d_engine T report_path netlist_csv_path netlist_spice_path))
  else ret tt) w = (World (cwd w) (puts (out_dir a w) (cell a) (if run_25d a then rcx25_files T else []) (files w)), Some tt).
Proof.
  destruct (run_25d a); [|destruct w; reflexivity]. unfold run_kpex_2_5d_engine, bind, abspath, write, read, named, ret.
  cbn [cwd files at_dir rcx25_files puts]. rewrite ?at_join, dget_dset_same. cbn [cwd files].
  assert (H := puts_in (out_dir a w) (cell a) (rcx25_files T) (files w) "_k25d_pex_report.rdb.gz" (report T)).
  rewrite ?at_join. cbn [rcx25_files puts] in H. unfold out_dir in H |- *. rewrite H; [reflexivity| |left; reflexivity].
  cbn. repeat constructor; cbn; intuition discriminate.
Qed.

(** * All engines *)
Definition after_lst (a : args) (w : @world data) : @world data :=
  if run_fastcap_ a || run_fastercap_ a then World (cwd w) (dset (files w) (list_file a w) (lst_data T)) else w.

Lemma lst_there a w : run_fastcap_ a || run_fastercap_ a = true -> dget (files (after_lst a w)) (list_file a (after_lst a w)) = Some (lst_data T).
Proof. unfold after_lst. intros ->. cbn. apply dget_dset_same. Qed.

Lemma after_dir a w : out_dir a (after_lst a w) = out_dir a w.
Proof. unfold after_lst. destruct (_ || _); reflexivity. Qed.

Lemma lst_kept a l w : dget (files w) (list_file a w) = Some (lst_data T) ->
  dget (puts (out_dir a w) (cell a) l (files w)) (list_file a w) = Some (lst_data T).
Proof. intros L. rewrite puts_other; [exact L|]. intros s _. apply name_not_list. Qed.

(** the run up to the solvers *)
Lemma engines_unfold a w :
  engines T a w =
  bind (if run_fastercap_ a then run_fastercap_extraction T a (lst_of a) else ret tt) (fun _ =>
  bind (if run_fastcap_ a then run_fastcap_extraction T a (lst_of a) else ret tt) (fun _ =>
  if run_25d a then
    let report_path := named a "_k25d_pex_report.rdb.gz" in
    bind (abspath (named a "_k25d_pex_netlist.csv")) (fun netlist_csv_path =>
    bind (abspath (named a "_k25d_pex_netlist.spice")) (fun netlist_spice_path =>
    run_kpex_2_5d_engine T report_path netlist_csv_path netlist_spice_path))
  else ret tt)) (after_lst a w).
Proof.
  unfold engines, after_lst, build_fastercap_input. destruct (run_fastcap_ a) eqn:F, (run_fastercap_ a) eqn:FF; cbn [orb].
  4: reflexivity.
  all: unfold bind at 1 2 3, write, ret at 1; fold (lst_of a); rewrite lst_at; unfold bind.
  all: try destruct (run_fastercap_extraction _ _ _ _) as [w1 [u|]]; try reflexivity.
  all: unfold ret at 1; try destruct (run_fastcap_extraction _ _ _ _) as [w2 [u2|]]; reflexivity.
Qed.

Definition mid (a : args) (m1 : matrix) (w : @world data) : @world data :=
  World (cwd w) (puts (out_dir a w) (cell a) (if run_fastercap_ a then fastercap_files T m1 else []) (files (after_lst a w))).

Lemma mid_run a m1 w : (run_fastercap_ a = true -> fastercap_gives T m1) ->
  (if run_fastercap_ a then run_fastercap_extraction T a (lst_of a) else ret tt) (after_lst a w) = (mid a m1 w, Some tt).
Proof.
  intros G. unfold mid. destruct (run_fastercap_ a) eqn:F.
  - rewrite (faster_ok a m1) by (try apply G, eq_refl; apply lst_there; rewrite F; apply orb_true_r).
    rewrite after_dir. unfold after_lst. destruct (_ || _); reflexivity.
  - unfold after_lst, ret. rewrite F. cbn [puts]. destruct (run_fastcap_ a); cbn; [reflexivity|]. destruct w; reflexivity.
Qed.

Lemma mid_lst a m1 w : run_fastcap_ a = true -> dget (files (mid a m1 w)) (list_file a (mid a m1 w)) = Some (lst_data T).
Proof.
  intros F. unfold mid. cbn [files cwd]. change (list_file a (World (cwd w) _)) with (list_file a w).
  assert (H := lst_there a w). unfold after_lst in *. rewrite F in *. cbn in *. apply (lst_kept a _ (World (cwd w) _)). apply H. reflexivity.
Qed.

Lemma engines_ok a m1 m2 w :
  (run_fastcap_ a = false \/ absolute (out a)) ->
  (run_fastercap_ a = true -> fastercap_gives T m1) -> (run_fastcap_ a = true -> fastcap_gives T m2) ->
  exists c, engines T a w = (World c (puts (out_dir a w) (cell a) (due T a m1 m2) (files (after_lst a w))), Some tt).
Proof.
  intros A G1 G2. rewrite engines_unfold. unfold bind at 1. rewrite (mid_run a m1 w G1). unfold bind at 1, due.
  destruct (run_fastcap_ a) eqn:F.
  - destruct A as [A|A]; [discriminate|]. rewrite (fast_ok a m2 _ A (G2 eq_refl) (mid_lst a m1 w F)). rewrite rcx_ok.
    eexists. cbn [cwd files].
    assert (E : forall x y : @world data, out_dir a x = out_dir a y) by (unfold out_dir; destruct (out a); [reflexivity|destruct A]).
    repeat match goal with |- context [out_dir a ?x] => tryif constr_eq x w then fail else rewrite (E x w) end. rewrite !puts_app. reflexivity.
  - unfold ret at 1. rewrite rcx_ok. eexists. cbn [cwd files mid]. change (out_dir a (mid a m1 w)) with (out_dir a w).
    rewrite !puts_app. reflexivity.
Qed.

Lemma due_nodup a m1 m2 : NoDup (map fst (due T a m1 m2)).
Proof.
  unfold due. destruct (run_fastercap_ a), (run_fastcap_ a), (run_25d a); cbn;
    repeat constructor; cbn; intuition discriminate.
Qed.

Lemma puts_only a w l c : only a w (World c (puts (out_dir a w) (cell a) l (files (after_lst a w)))) (map fst l).
Proof.
  intros p H. cbn [files] in H.
  destruct (in_dec (list_eq_dec string_dec) p (map (result a w) (map fst l))) as [I|I].
  - right. apply in_map_iff in I as (s & E & I). exists s. split; [exact I|]. symmetry. exact E.
  - left. rewrite puts_other in H.
    + unfold after_lst in H. destruct (_ || _); [|destruct (H eq_refl)]. cbn [files] in H. rewrite dget_dset in H.
      destruct (eq_dec p (list_file a w)) as [E|E]; [exact E|]. destruct (H eq_refl).
    + intros s Hs E. apply I. apply in_map_iff. exists s. split; [symmetry; exact E|exact Hs].
Qed.

Lemma engines_faster_fail a w :
  run_fastercap_ a = true -> snd (fastercap T (Some (lst_data T))) = false \/ parse_fastercap T (fastercap_log T) = None ->
  engines T a w = (World (cwd w) (puts (out_dir a w) (cell a) [("_FasterCap_Output.txt", fastercap_log T)] (files (after_lst a w))), None).
Proof.
  intros F G. rewrite engines_unfold. unfold bind at 1. rewrite F.
  rewrite (faster_fail a _ G) by (apply lst_there; rewrite F; apply orb_true_r). rewrite after_dir.
  f_equal. unfold after_lst. destruct (_ || _); reflexivity.
Qed.

Lemma engines_fast_fail a m1 w :
  run_fastcap_ a = true -> (run_fastercap_ a = true -> fastercap_gives T m1) ->
  snd (fastcap T (Some (lst_data T))) = false \/ (absolute (out a) /\ parse_fastcap T (fastcap_log T) = None) \/
    (exists o, out a = Rel o /\ o <> [] /\
       dget (files w) (out_dir a w ++ ["FasterCap_Input_Files"] ++ o ++ [(cell a ++ "_FastCap2_Output.txt")%string]) = None) ->
  exists c, engines T a w = (World c (puts (out_dir a w) (cell a)
    ((if run_fastercap_ a then fastercap_files T m1 else []) ++ [("_FastCap2_Output.txt", fastcap_log T)]) (files (after_lst a w))), None).
Proof.
  intros F G1 G. rewrite engines_unfold. unfold bind at 1. rewrite (mid_run a m1 w G1). unfold bind at 1. rewrite F.
  rewrite (fast_fail a _ (mid_lst a m1 w F)).
  - eexists. rewrite puts_app. reflexivity.
  - destruct G as [G|[G|(o & E & No & N)]]; [left; exact G|right; left; exact G|]. right. right. exists o. split; [exact E|]. split; [exact No|].
    unfold mid. cbn [files]. change (out_dir a (World (cwd w) _)) with (out_dir a w). rewrite puts_other.
    + unfold after_lst. rewrite F. cbn [orb files]. rewrite dget_dset_other; [exact N|].
      unfold list_file. intros H. apply app_inv_head in H. cbn in H. injection H as H.
      apply (f_equal (@List.length string)) in H. rewrite app_length in H. cbn in H. destruct o; [destruct (No eq_refl)|cbn in H; lia].
    + intros s _ H. apply app_inv_head in H. apply (f_equal (@List.length string)) in H. cbn in H. rewrite app_length in H. cbn in H. lia.
Qed.
End Proofs.
