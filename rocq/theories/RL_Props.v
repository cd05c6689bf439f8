(** C84: no log is lost. *)
From Coq Require Import String Ascii Sorted.
From Verif Require NX_Model NX_Proofs.
From Verif Require Import PyBase PyLib RL_Model RL_Spec RL_Proofs.
Local Open Scope string_scope.
Local Open Scope list_scope.

(** C84. Runs one after the other, each in its own process and starting in a later second than its predecessor ended, some of them stopped
    before they have a run directory or in the middle, in one base directory without logs: at the end the messages of every run are in a
    plain and in a formatted log below the base directory. *)
Theorem C84_kept_partial stamp base T jobs d :
  stamps stamp -> sound d -> no_logs stamp base d -> one_by_one T jobs ->
  forall kind j, In kind kinds -> In j jobs -> kept stamp base kind (run_all stamp base jobs d) j.
Proof.
  intros St S N O kind j Ik Ij. refine (proj1 (history stamp St base T jobs d _ O kind Ik) j Ij).
  assert (V : forall k p, In k kinds -> log_path stamp base k p -> view d p = None).
  { intros k p I H. specialize (N k p I H). rewrite contents_view in N. destruct (view d p); [discriminate|reflexivity]. }
  split; [exact S|]. split.
  - intros id k n I H. rewrite (V k (L base id k) I) in H; [discriminate|]. apply log_path_cases. eauto.
  - intros id k t I H. exfalso. apply H. apply (V k); [exact I|]. apply log_path_cases. eauto.
Qed.

(** C84. If no log was left behind in the base directory, the log of a run has the messages of this run and nothing else, it is in the run
    directory, and a log that was there before is kept whole under another name. *)
Theorem C84_own stamp base j id d kind :
  stamps stamp -> sound d -> run_id j = Some id -> In kind kinds ->
  contents d (base ++ [(kind ++ ".log")%string]) = None ->
  let d1 := fst (run_job stamp base j (d, [])) in
  contents d1 (base ++ [id; (kind ++ ".log")%string]) = Some (messages j) /\
  contents d1 (base ++ [(kind ++ ".log")%string]) = None /\
  (forall old, contents d (base ++ [id; (kind ++ ".log")%string]) = Some old ->
     exists t, contents d1 (base ++ [id; (kind ++ "_" ++ stamp t ++ ".bak.log")%string]) = Some old).
Proof.
  intros St S R Ik N d1. destruct (run_some stamp St base j id d S R) as (S1 & VL & VP & VB & _).
  assert (EL : base ++ [id; (kind ++ ".log")%string] = L base id kind) by (unfold L; rewrite <- app_assoc; reflexivity).
  change (base ++ [(kind ++ ".log")%string]) with (P base kind) in *. rewrite EL, !contents_view in *. split; [|split].
  - unfold d1. rewrite (VL kind Ik). destruct (view d (P base kind)); [discriminate|]. cbn [option_map or_new]. rewrite adds_text. cbn [text touch].
    rewrite adds_text. unfold messages. rewrite R. reflexivity.
  - unfold d1. rewrite (VP kind Ik). reflexivity.
  - intros old Ho. destruct (view d (L base id kind)) as [o|] eqn:Vo; [|discriminate]. cbn in Ho. injection Ho as <-.
    exists (changed o). replace (base ++ _) with (B stamp base id kind (changed o)) by (unfold B; rewrite <- app_assoc; reflexivity).
    unfold d1. rewrite contents_view, (VB kind o Ik Vo). reflexivity.
Qed.

(** C84. Logging touches nothing but logs. *)
Theorem C84_others stamp base jobs d p :
  stamps stamp -> sound d -> (forall kind, In kind kinds -> ~ log_path stamp base kind p) -> contents (run_all stamp base jobs d) p = contents d p.
Proof.
  intros St S N. revert d S. induction jobs as [|j js IH]; intros d S; [reflexivity|]. cbn [run_all].
  rewrite IH by (apply (run_sound stamp St base), S). rewrite !contents_view. f_equal. apply (outside stamp St base); assumption.
Qed.

(** * What does not hold *)
Definition st (t : nat) : string := String "2" (NX_Model.nat_str t).
Lemma st_stamps : stamps st.
Proof.
  split; [intros t; exists "2"%char, (NX_Model.nat_str t); split; [reflexivity|cbn; lia]|].
  intros t u E. injection E as E. exact (NX_Proofs.nat_str_inj _ _ E).
Qed.
Definition empty : disk := Disk [] [] 0.
Lemma empty_sound : sound empty.
Proof. split; [constructor|]. split; intros; discriminate. Qed.
Lemma empty_logs base : no_logs st base empty.
Proof. intros k p _ _. reflexivity. Qed.

(** C84 fails for runs that end in the second in which the one before ended: backups have names with a resolution of one second, and the
    second backup replaces the first. *)
Definition quick (m : string) : job := Job 7 [(7%nat, m)] (Some "x__top") 7 [].
Theorem C84_same_second_refuted :
  exists stamp base jobs d, stamps stamp /\ sound d /\ no_logs stamp base d /\ Forall (fun j => StronglySorted le (times j)) jobs /\
    StronglySorted le (List.concat (map times jobs)) /\
    exists kind j, In kind kinds /\ In j jobs /\ ~ kept stamp base kind (run_all stamp base jobs d) j.
Proof.
  exists st, ["output"], [quick "first"; quick "second"; quick "third"], empty.
  split; [exact st_stamps|]. split; [exact empty_sound|]. split; [apply empty_logs|]. split; [|split].
  - repeat constructor.
  - cbn. repeat constructor.
  - exists "kpex", (quick "first"). split; [right; left; reflexivity|]. split; [left; reflexivity|].
    intros (p & x & y & _ & C).
    set (d := run_all _ _ _ _) in C. unfold contents in C. destruct (dget (names d) p) as [i|] eqn:E; [|discriminate].
    destruct (dget (nodes d) i) as [n|] eqn:En; [|discriminate]. injection C as C.
    assert (H : In "first" (text n)) by (rewrite C; apply in_or_app; right; left; reflexivity). clear C.
    assert (Q : forallb (fun pi => match dget (nodes d) (snd pi) with Some n => negb (existsb (String.eqb "first") (text n)) | None => true end)
                  (names d) = true) by (vm_compute; reflexivity).
    rewrite forallb_forall in Q. specialize (Q _ (dget_In _ _ E)). cbn [snd] in Q. rewrite En in Q. apply negb_true_iff in Q.
    assert (X : existsb (String.eqb "first") (text n) = true) by (apply existsb_exists; exists "first"; split; [exact H|apply String.eqb_refl]).
    congruence.
Qed.

(** C84: what a run says that stops before it has a run directory turns up in the log of the next run, whatever that one is about. *)
Theorem C84_left_behind_refuted stamp base j1 j2 id d kind :
  stamps stamp -> sound d -> no_logs stamp base d -> In kind kinds -> run_id j1 = None -> run_id j2 = Some id ->
  contents (run_all stamp base [j1; j2] d) (base ++ [id; (kind ++ ".log")%string]) = Some (messages j1 ++ messages j2).
Proof.
  intros St S N Ik R1 R2. cbn [run_all]. destruct (run_none stamp base j1 d S R1) as (S1 & V1 & _).
  set (d1 := fst (run_job stamp base j1 (d, []))) in *. destruct (run_some stamp St base j2 id d1 S1 R2) as (_ & V2 & _).
  replace (base ++ _) with (L base id kind) by (unfold L; rewrite <- app_assoc; reflexivity).
  rewrite contents_view, (V2 kind Ik), (V1 kind Ik).
  assert (V0 : view d (P base kind) = None).
  { specialize (N kind (P base kind) Ik (preliminary _ _ _)). rewrite contents_view in N. destruct (view d (P base kind)); [discriminate|reflexivity]. }
  rewrite V0. cbn [option_map or_new]. rewrite adds_text. cbn [text touch]. rewrite !adds_text. unfold messages. rewrite R1, R2, app_nil_r, app_assoc.
  reflexivity.
Qed.

(** C84: a second run in the same process (kpex called from a program) writes also into the log of the first. *)
Definition run_a : job := Job 1 [(1%nat, "a1")] (Some "a__top") 2 [(3%nat, "a2")].
Definition run_b : job := Job 11 [(11%nat, "b1")] (Some "b__top") 12 [(13%nat, "b2")].
Theorem C84_same_process_refuted :
  exists stamp base j1 j2 id, stamps stamp /\ run_id j1 = Some id /\ one_by_one 0 [j1; j2] /\
    contents (fst (run_job stamp base j2 (run_job stamp base j1 (empty, [])))) (base ++ [id; "kpex.log"]) = Some (messages j1 ++ messages j2).
Proof.
  exists st, ["output"], run_a, run_b, "a__top". split; [exact st_stamps|]. split; [reflexivity|]. split; [|vm_compute; reflexivity].
  cbn. repeat (constructor; try lia).
Qed.

(** * The hypotheses are met *)
(** a run, one that stops early, and another run for the first cell *)
Definition three : list job := [run_a; Job 5 [(6%nat, "usage")] None 6 []; Job 8 [(8%nat, "c1")] (Some "a__top") 9 []].
Example C84_met : stamps st /\ sound empty /\ no_logs st ["output"] empty /\ one_by_one 0 three.
Proof.
  split; [exact st_stamps|]. split; [exact empty_sound|]. split; [apply empty_logs|]. cbn. repeat (constructor; try lia).
Qed.
Example C84_three :
  let d := run_all st ["output"] three empty in
  contents d ["output"; "a__top"; "kpex.log"] = Some ["usage"; "c1"] /\
  contents d ["output"; "a__top"; "kpex_23.bak.log"] = Some ["a1"; "a2"] /\
  contents d ["output"; "a__top"; "kpex_plain_23.bak.log"] = Some ["a1"; "a2"] /\
  contents d ["output"; "kpex.log"] = None /\ List.length (names d) = 4%nat.
Proof. repeat split; vm_compute; reflexivity. Qed.
Example C84_others_met : forall kind, In kind kinds -> ~ log_path st ["output"] kind ["output"; "a__top"; "top_k25d_pex_netlist.csv"].
Proof.
  intros k Ik H. inversion H as [E|id E|id t E]; destruct Ik as [<-|[<-|[]]]; cbn in E; discriminate.
Qed.

Print Assumptions C84_kept_partial.
Print Assumptions C84_own.
Print Assumptions C84_others.
Print Assumptions C84_same_second_refuted.
Print Assumptions C84_left_behind_refuted.
Print Assumptions C84_same_process_refuted.
