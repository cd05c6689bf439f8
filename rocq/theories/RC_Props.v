(** C99: logs and runs that are killed. C100: logs of runs at the same time. *)
From Coq Require Import String Ascii Sorted.
From Verif Require Import PyBase PyLib RL_Model RL_Spec RL_Proofs RL_Props RC_Model RC_Spec RC_Proofs RC_Runs RC_Par.
Local Open Scope string_scope.
Local Open Scope list_scope.

(** C99. Runs one after the other, each killed after any number of operations on the file system: none of them raises because of what the
    others left, and whatever a run had written when it was killed is, in one piece, in a log of that kind below the base directory. *)
Theorem C99_crash stamp base T runs d :
  stamps stamp -> sound d -> no_logs stamp base d -> one_by_one T (map fst runs) ->
  exists d1, crash_all stamp base runs d = Some d1 /\
    forall kind j n, In kind kinds -> In (j, n) runs -> written kind (firstn n (ops j)) <> [] -> holds stamp base kind d1 (written kind (firstn n (ops j))).
Proof.
  intros St S N O. destruct (crash_history stamp St base runs T d (no_logs_rest stamp base T d S N) O) as (d1 & T1 & E & _ & _ & _ & _ & W). now exists d1.
Qed.

(** C99. After such a history a run that is not killed has its log in its run directory: what was left in the base directory, then its own messages. *)
Theorem C99_next stamp base T runs j id d :
  stamps stamp -> sound d -> no_logs stamp base d -> one_by_one T (map fst runs) -> run_id j = Some id ->
  exists d1 d2, crash_all stamp base runs d = Some d1 /\ crash_all stamp base [(j, List.length (ops j))] d1 = Some d2 /\
    forall kind, In kind kinds ->
      contents d2 (base ++ [(kind ++ ".log")%string]) = None /\
      contents d2 (base ++ [id; (kind ++ ".log")%string]) =
        Some (match contents d1 (base ++ [(kind ++ ".log")%string]) with Some old => old | None => [] end ++ messages j).
Proof.
  intros St S N O R. destruct (crash_history stamp St base runs T d (no_logs_rest stamp base T d S N) O) as (d1 & T1 & E & [S1 _] & _).
  destruct (whole_run stamp St base j d1 S1) as (l & Q). destruct (run_some stamp St base j id d1 S1 R) as (S2 & VL & VP & _).
  exists d1, (fst (run_job stamp base j (d1, []))). split; [exact E|]. split; [cbn [crash_all]; now rewrite firstn_all, Q|]. intros kind Ik.
  change (base ++ [(kind ++ ".log")%string]) with (P base kind). replace (base ++ [id; (kind ++ ".log")%string]) with (L base id kind) by (unfold L; now rewrite <- app_assoc).
  rewrite !contents_view, (VP kind Ik), (VL kind Ik). split; [reflexivity|]. cbn [option_map]. rewrite adds_text. cbn [text touch]. rewrite adds_text. unfold messages. rewrite R.
  rewrite <- app_assoc. destruct (view d1 (P base kind)); reflexivity.
Qed.

(** C99. The operations of a run that is not killed are together what C84 is about. *)
Theorem C99_whole stamp base j d : stamps stamp -> sound d ->
  exists l, perform stamp base (dir j) (ops j) (d, start) = Some (fst (run_job stamp base j (d, [])), l).
Proof. intros St S. exact (whole_run stamp St base j d S). Qed.

(** what a run has written at the end, in the words of C84 *)
Theorem C99_messages kind j : In kind kinds -> written kind (ops j) = messages j.
Proof.
  intros Ik. assert (SAY : forall msgs, written kind (flat_map say msgs) = map snd msgs).
  { induction msgs as [|tm ms IH]; [reflexivity|]. cbn [flat_map]. rewrite written_app, IH. destruct Ik as [<-|[<-|[]]]; reflexivity. }
  unfold ops, messages. rewrite !written_app, SAY. cbn [written flat_map app]. f_equal. destruct (run_id j); [|reflexivity].
  rewrite !written_app, SAY. reflexivity.
Qed.

(** C100. Processes in base directories of which none contains another, in every schedule: each is as far, and its logs are the same, as if it
    had been alone on the disk for the same number of operations. *)
Definition processes (runs : list (list string * job)) : list process := map (fun r => begin (fst r) (snd r)) runs.
Definition in_apart (runs : list (list string * job)) : Prop :=
  forall i i' r r', i <> i' -> nth_error runs i = Some r -> nth_error runs i' = Some r' -> apart (fst r) (fst r').
Lemma nth_processes runs i p : nth_error (processes runs) i = Some p -> exists r, nth_error runs i = Some r /\ p = begin (fst r) (snd r).
Proof. unfold processes. rewrite nth_error_map. destruct (nth_error runs i) as [r|]; [|discriminate]. intros E. injection E as <-. now exists r. Qed.
Lemma processes_apart runs : in_apart runs -> bases_apart (processes runs).
Proof.
  intros A i i' p q NE N N'. apply nth_processes in N as (r & N & ->), N' as (r' & N' & ->). exact (A i i' r r' NE N N').
Qed.
Theorem C100_apart stamp runs d turns i base j :
  sound d -> in_apart runs -> nth_error runs i = Some (base, j) ->
  exists p p', nth_error (snd (schedule stamp turns (d, processes runs))) i = Some p /\
    snd (schedule stamp (repeat 0%nat (turns_of i turns)) (d, [begin base j])) = [p'] /\ todo p = todo p' /\
    forall kind q, log_path stamp base kind q ->
      contents (fst (schedule stamp turns (d, processes runs))) q = contents (fst (schedule stamp (repeat 0%nat (turns_of i turns)) (d, [begin base j]))) q.
Proof.
  intros S A N. assert (N' : nth_error (processes runs) i = Some (begin base j)) by (unfold processes; now rewrite nth_error_map, N).
  set (als := fun m => (d, match nth_error (processes runs) m with Some p => p | None => begin base j end)).
  destruct (schedules stamp turns d (processes runs) als (processes_apart runs A)) with (i := i) (p := begin base j) as (p1 & a & X1 & X2 & X3).
  - intros m p Np. unfold als. rewrite Np. apply nth_processes in Np as (r & _ & ->). now apply begin_related.
  - exact N'.
  - unfold als in X2. cbn [fst snd] in X2. rewrite N' in X2. destruct X3 as (B & D & E & R). exists p1, (snd a). split; [exact X1|]. rewrite X2. cbn [fst snd]. split; [reflexivity|].
    split; [now symmetry|]. intros kind q H. destruct R as (_ & _ & V & _). rewrite !contents_view, V; [reflexivity|].
    assert (PB : p_base p1 = base).
    { rewrite <- B. assert (G : forall n d p, exists d' p', schedule stamp (repeat 0%nat n) (d, [p]) = (d', [p']) /\ p_base p' = p_base p).
      { induction n as [|n IH]; intros d0 p; [now exists d0, p|]. cbn [repeat]. rewrite one_turn. destruct (IH (fst (advance stamp d0 p)) (snd (advance stamp d0 p))) as (d' & p' & Y1 & Y2).
        exists d', p'. split; [exact Y1|]. rewrite Y2. unfold advance. destruct (todo p) as [[|o t]|]; try reflexivity. destruct (step _ _ _ _ _) as [[]|]; reflexivity. }
      destruct (G (turns_of i turns) d (begin base j)) as (d' & p' & Y1 & Y2). rewrite X2 in Y1. injection Y1 as _ <-. exact Y2. }
    rewrite PB. exact (log_under stamp base kind q H).
Qed.

(** C100. So in every schedule, stopped at any moment, no run raises because of the logs, and what it has written so far is in its logs. *)
Theorem C100_kept stamp runs d turns i base j :
  stamps stamp -> sound d -> in_apart runs -> nth_error runs i = Some (base, j) -> no_logs stamp base d -> one_by_one 0 [j] ->
  exists p, nth_error (snd (schedule stamp turns (d, processes runs))) i = Some p /\ todo p = Some (skipn (turns_of i turns) (ops j)) /\
    forall kind, In kind kinds -> written kind (firstn (turns_of i turns) (ops j)) <> [] ->
      holds stamp base kind (fst (schedule stamp turns (d, processes runs))) (written kind (firstn (turns_of i turns) (ops j))).
Proof.
  intros St S A N NL (O1 & O2 & _). destruct (C100_apart stamp runs d turns i base j S A N) as (p & p' & X1 & X2 & X3 & X4).
  destruct (crash_one stamp St base 0 j (turns_of i turns) d (no_logs_rest stamp base 0 d S NL) O1 O2) as (d1 & l & E & _ & _ & W).
  assert (AL := alone stamp (turns_of i turns) base (dir j) (ops j) d start d1 l E). unfold begin in X2, X4. rewrite AL in X2, X4. cbn [fst snd] in X2, X4.
  injection X2 as <-. exists p. split; [exact X1|]. split; [exact X3|]. intros kind Ik NE. destruct (W kind Ik NE) as (q & x & y & H & C).
  exists q, x, y. split; [exact H|]. rewrite (X4 kind q H). exact C.
Qed.

(** * What does not hold *)
(** C100 fails for two runs in one base directory, for different cells: the first moves away the log that the second has open, the second then
    stops with FileNotFoundError, and what it said is in the run directory of the first. *)
Definition first_run : job := Job 1 [(1%nat, "a1")] (Some "a__top") 2 [(3%nat, "a2")].
Definition second_run : job := Job 1 [(1%nat, "b1")] (Some "b__top") 2 [(3%nat, "b2")].
Theorem C100_same_directory_refuted :
  exists stamp base j1 j2 id1 id2 turns, stamps stamp /\ one_by_one 0 [j1] /\ one_by_one 0 [j2] /\ run_id j1 = Some id1 /\ run_id j2 = Some id2 /\ id1 <> id2 /\
    let (d, ps) := schedule stamp turns (empty, [begin base j1; begin base j2]) in
    map todo ps = [Some []; None] /\ contents d (base ++ [id2; "kpex.log"]) = None /\
    exists m log, In m (messages j2) /\ ~ In m (messages j1) /\ contents d (base ++ [id1; "kpex.log"]) = Some log /\ In m log.
Proof.
  exists RL_Props.st, ["output"], first_run, second_run, "a__top", "b__top", (repeat 0%nat 2 ++ repeat 1%nat 4 ++ repeat 0%nat 14 ++ repeat 1%nat 4).
  split; [exact st_stamps|]. split; [cbn; repeat (constructor; try lia)|]. split; [cbn; repeat (constructor; try lia)|]. split; [reflexivity|]. split; [reflexivity|]. split; [discriminate|].
  destruct (schedule _ _ _) as [d ps] eqn:E. assert (X : map todo ps = [Some []; None] /\ contents d ["output"; "b__top"; "kpex.log"] = None /\
    contents d ["output"; "a__top"; "kpex.log"] = Some ["b1"; "a1"; "a2"]).
  { replace ps with (snd (schedule RL_Props.st (repeat 0%nat 2 ++ repeat 1%nat 4 ++ repeat 0%nat 14 ++ repeat 1%nat 4) (empty, [begin ["output"] first_run; begin ["output"] second_run]))) by now rewrite E.
    replace d with (fst (schedule RL_Props.st (repeat 0%nat 2 ++ repeat 1%nat 4 ++ repeat 0%nat 14 ++ repeat 1%nat 4) (empty, [begin ["output"] first_run; begin ["output"] second_run]))) by now rewrite E.
    vm_compute. repeat split. }
  destruct X as (X1 & X2 & X3). split; [exact X1|]. split; [exact X2|]. exists "b1", ["b1"; "a1"; "a2"]. split; [now left|]. split; [|split; [exact X3|now left]].
  intros [Q|[Q|[]]]; discriminate.
Qed.

(** * The hypotheses are met *)
(** a whole run; one killed after the backup and before the move of the first log; one killed between the two moves *)
Definition killed : list (job * nat) :=
  [(Job 1 [(1%nat, "a1")] (Some "a__top") 2 [(3%nat, "a2")], 16%nat); (Job 5 [(6%nat, "b1")] (Some "a__top") 7 [(8%nat, "b2")], 7%nat); (Job 9 [(9%nat, "c1")] (Some "a__top") 10 [], 11%nat)].
Example C99_met : stamps RL_Props.st /\ sound empty /\ no_logs RL_Props.st ["output"] empty /\ one_by_one 0 (map fst killed).
Proof. split; [exact st_stamps|]. split; [exact empty_sound|]. split; [apply empty_logs|]. cbn. repeat (constructor; try lia). Qed.
Example C99_killed :
  match crash_all RL_Props.st ["output"] killed empty with
  | Some d =>
      contents d ["output"; "kpex.log"] = Some ["b1"; "c1"] /\ contents d ["output"; "kpex_plain.log"] = None /\
      contents d ["output"; "a__top"; "kpex.log"] = Some ["a1"; "a2"] /\
      contents d ["output"; "a__top"; "kpex_plain.log"] = Some ["b1"; "c1"] /\ contents d ["output"; "a__top"; "kpex_plain_23.bak.log"] = Some ["a1"; "a2"]
  | None => False
  end.
Proof. vm_compute. repeat split. Qed.
Example C99_killed_words : map (fun r => written "kpex" (firstn (snd r) (ops (fst r)))) killed = [["a1"; "a2"]; ["b1"]; ["c1"]].
Proof. reflexivity. Qed.
Definition two : list (list string * job) := [(["out"; "a"], first_run); (["out"; "b"], second_run)].
Example C100_met : in_apart two /\ Forall (fun r => one_by_one 0 [snd r] /\ no_logs RL_Props.st (fst r) empty) two.
Proof.
  split.
  - intros [|[|]] [|[|]] r r' NE N N'; cbn in N, N'; try congruence; try (destruct n; discriminate); injection N as <-; injection N' as <-; split; intros x Q; discriminate.
  - repeat (constructor; [split; [cbn; repeat (constructor; try lia)|apply empty_logs]|]). constructor.
Qed.
Example C100_turns :
  let (d, ps) := schedule RL_Props.st (List.concat (repeat [0; 1; 1]%nat 16)) (empty, processes two) in
  map todo ps = [Some []; Some []] /\ contents d ["out"; "a"; "a__top"; "kpex.log"] = Some ["a1"; "a2"] /\ contents d ["out"; "b"; "b__top"; "kpex.log"] = Some ["b1"; "b2"].
Proof. vm_compute. repeat split. Qed.

Print Assumptions C99_crash.
Print Assumptions C99_next.
Print Assumptions C99_whole.
Print Assumptions C99_messages.
Print Assumptions C100_apart.
Print Assumptions C100_kept.
Print Assumptions C100_same_directory_refuted.
